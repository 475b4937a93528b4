(** Similar marks show similar pictures. *)
From Coq Require Import Lra Lia.
From Verif Require Import PyBase QcLib GeomModel GeomSpec GeomProofs HullSpec CairoSpec CairoProofs MacroModel AmModel AmSpec MacroGeomModel MacroGeomSpec MacroGeomProofs ShowModel ShowSpec CamShowSpec CamShowProofs SimilarSpec.
From Verif Require Import GerberText.
From Verif Require GerberEval GerberEvalSpec.
Import ListNotations GerberEvalSpec.
Open Scope R_scope.
Open Scope list_scope.

Section Similar.
Variable k : R.
Variable d : pt.
Hypothesis K : 0 < k.
Notation sim := (similar k d).

Lemma sim_onto p : exists q, p = sim q.
Proof. exists ((fst p - fst d) / k, (snd p - snd d) / k). destruct p. unfold similar. cbn [fst snd]. f_equal; field; lra. Qed.
Lemma sim_inj p q : sim p = sim q -> p = q.
Proof. intro E. injection E as E1 E2. destruct p, q. cbn [fst snd] in *. f_equal; apply Rmult_eq_reg_l with k; lra. Qed.
Lemma mag_onto p : exists q, p = magnify k q.
Proof. exists (fst p / k, snd p / k). destruct p. unfold magnify. cbn [fst snd]. f_equal; field; lra. Qed.

(** ** Shapes *)
Definition alike_shape (s s' : shape) : Prop := forall p, s' (sim p) <-> s p.
Definition alike_tool (s s' : shape) : Prop := forall p, s' (magnify k p) <-> s p.
Lemma disc_sim c r : alike_shape (disc c r) (disc (sim c) (k * r)).
Proof.
  intro p. unfold disc, dist2, similar. cbn [fst snd]. split; intro H.
  - apply Rmult_le_reg_l with (k ^ 2); [nra|]. nra.
  - apply Rmult_le_compat_l with (r := k ^ 2) in H; [|nra]. nra.
Qed.
Lemma disc_mag r : alike_tool (disc (0, 0) r) (disc (0, 0) (k * r)).
Proof.
  intro p. unfold disc, dist2, magnify. cbn [fst snd]. split; intro H.
  - apply Rmult_le_reg_l with (k ^ 2); [nra|]. nra.
  - apply Rmult_le_compat_l with (r := k ^ 2) in H; [|nra]. nra.
Qed.
Lemma oblong_mag w h : alike_tool (oblong w h) (oblong (k * w) (k * h)).
Proof.
  intro p. unfold oblong, magnify. cbn [fst snd]. split; intros [[A B] [C D]].
  - repeat split; apply Rmult_le_reg_l with k; lra.
  - apply (Rmult_le_compat_l k) in A; [|lra]. apply (Rmult_le_compat_l k) in B; [|lra]. apply (Rmult_le_compat_l k) in C; [|lra]. apply (Rmult_le_compat_l k) in D; [|lra]. lra.
Qed.
Lemma segment_sim a b : alike_shape (segment a b) (segment (sim a) (sim b)).
Proof.
  intro p. split; intros (t & T0 & E); exists t; (split; [exact T0|]).
  - apply sim_inj. rewrite E. unfold similar. cbn [fst snd]. f_equal; ring.
  - rewrite E. unfold similar. cbn [fst snd]. f_equal; ring.
Qed.
Lemma segment_mag a b : alike_tool (segment a b) (segment (magnify k a) (magnify k b)).
Proof.
  intro p. split; intros (t & T0 & E); exists t; (split; [exact T0|]).
  - unfold magnify in E. cbn [fst snd] in E. injection E as E1 E2. destruct p as [x y]. cbn [fst snd] in *. f_equal; apply Rmult_eq_reg_l with k; lra.
  - rewrite E. unfold magnify. cbn [fst snd]. f_equal; ring.
Qed.
Lemma stroke_sim p p' t t' : alike_shape p p' -> alike_tool t t' -> alike_shape (stroke p t) (stroke p' t').
Proof.
  intros P Q x. split.
  - intros (q & v & Hq & Hv & E). destruct (sim_onto q) as (q0 & ->). destruct (mag_onto v) as (v0 & ->). exists q0, v0. split; [now apply P|]. split; [now apply Q|].
    apply sim_inj. rewrite E. unfold similar, magnify. cbn [fst snd]. f_equal; ring.
  - intros (q & v & Hq & Hv & ->). exists (sim q), (magnify k v). split; [now apply P|]. split; [now apply Q|]. unfold similar, magnify. cbn [fst snd]. f_equal; ring.
Qed.
Lemma stroke_mag p p' t t' : alike_tool p p' -> alike_tool t t' -> alike_tool (stroke p t) (stroke p' t').
Proof.
  intros P Q x. split.
  - intros (q & v & Hq & Hv & E). destruct (mag_onto q) as (q0 & ->). destruct (mag_onto v) as (v0 & ->). exists q0, v0. split; [now apply P|]. split; [now apply Q|].
    unfold magnify in E. cbn [fst snd] in E. injection E as E1 E2. destruct x. cbn [fst snd] in *. f_equal; apply Rmult_eq_reg_l with k; lra.
  - intros (q & v & Hq & Hv & ->). exists (magnify k q), (magnify k v). split; [now apply P|]. split; [now apply Q|]. unfold magnify. cbn [fst snd]. f_equal; ring.
Qed.
Lemma capsule_mag w h : alike_tool (capsule w h) (capsule (k * w) (k * h)).
Proof.
  unfold capsule. destruct (Rlt_dec w h) as [L|L]; destruct (Rlt_dec (k * w) (k * h)) as [L'|L'].
  - replace (k * w / 2) with (k * (w / 2)) by field. apply stroke_mag; [|apply disc_mag]. intro p. rewrite <- (segment_mag _ _ p). unfold magnify. cbn [fst snd].
    replace ((k * w - k * h) / 2) with (k * ((w - h) / 2)) by field. replace ((k * h - k * w) / 2) with (k * ((h - w) / 2)) by field. rewrite !Rmult_0_r. reflexivity.
  - exfalso. apply L'. apply Rmult_lt_compat_l; lra.
  - exfalso. apply L. apply Rmult_lt_reg_l with k; lra.
  - replace (k * h / 2) with (k * (h / 2)) by field. apply stroke_mag; [|apply disc_mag]. intro p. rewrite <- (segment_mag _ _ p). unfold magnify. cbn [fst snd].
    replace ((k * w - k * h) / 2) with (k * ((w - h) / 2)) by field. replace ((k * h - k * w) / 2) with (k * ((h - w) / 2)) by field. rewrite !Rmult_0_r. reflexivity.
Qed.
Lemma moved_sim c s s' : alike_tool s s' -> alike_shape (moved c s) (moved (sim c) s').
Proof.
  intros H p. unfold moved. rewrite <- (H (fst p - fst c, snd p - snd c)). unfold similar, magnify. cbn [fst snd].
  replace (k * fst p + fst d - (k * fst c + fst d)) with (k * (fst p - fst c)) by ring. replace (k * snd p + snd d - (k * snd c + snd d)) with (k * (snd p - snd c)) by ring. reflexivity.
Qed.
Lemma at_angle_sim c r t : at_angle (sim c) (k * r) t = sim (at_angle c r t).
Proof. unfold at_angle, similar. cbn [fst snd]. f_equal; ring. Qed.
(** ** Arcs *)
Definition sim_arc (a : arc) : arc := mkArc (sim (a_start a)) (sim (a_end a)) (sim (a_center a)) (a_dir a) (a_quad a).
Lemma arc_is_sim a r f l : arc_is (sim_arc a) (k * r) f l <-> arc_is a r f l.
Proof.
  unfold arc_is, sim_arc. cbn [a_start a_end a_center a_dir]. rewrite !at_angle_sim. split; intros (R0 & L & A & B).
  - split; [apply Rmult_lt_reg_l with k; lra|]. split; [exact L|]. split; now apply sim_inj.
  - split; [now apply Rmult_lt_0_compat|]. split; [exact L|]. split; congruence.
Qed.
Lemma arc_is_sim' a r f l : arc_is (sim_arc a) r f l <-> arc_is a (r / k) f l.
Proof. rewrite <- (arc_is_sim a (r / k) f l). replace (k * (r / k)) with r by (field; lra). reflexivity. Qed.
Lemma on_arc_sim a : alike_shape (on_arc a) (on_arc (sim_arc a)).
Proof.
  intro p. split; intros (r & f & l & t & A & T0 & E).
  - exists (r / k), f, l, t. split; [now apply arc_is_sim'|]. split; [exact T0|]. apply sim_inj. rewrite E, <- at_angle_sim. replace (k * (r / k)) with r by (field; lra). reflexivity.
  - exists (k * r), f, l, t. split; [now apply arc_is_sim|]. split; [exact T0|]. rewrite E, <- at_angle_sim. reflexivity.
Qed.
Lemma fair_arc_sim a : fair_arc a -> fair_arc (sim_arc a).
Proof.
  intros [(r & f & l & A & L) Q]. split; [exists (k * r), f, l; split; [now apply arc_is_sim|exact L]|]. destruct Q as [Q|(r' & f' & l' & j & A' & X & Y)]; [now left|right]. exists (k * r'), f', l', j. split; [now apply arc_is_sim|auto].
Qed.
(** ** Contours *)
Lemma straight_sim a b t : straight (sim a) (sim b) t = sim (straight a b t).
Proof. unfold straight, similar. cbn [fst snd]. f_equal; ring. Qed.
Lemma curved_sim c r f s t : curved (sim c) (k * r) f s t = sim (curved c r f s t).
Proof. unfold curved. now rewrite at_angle_sim. Qed.
Definition sims (l : list curve) : list curve := map (fun (f : curve) t => sim (f t)) l.
Lemma joined_sim : forall l p, same (joined (sim p) (map sim l)) (sims (joined p l)).
Proof. induction l as [|q l IH]; intro p; [constructor|]. cbn [joined map sims]. constructor; [intro t; apply straight_sim|apply IH]. Qed.
Lemma last_map {A B} (f : A -> B) (l : list A) a b : l <> [] -> last (map f l) b = f (last l a).
Proof. induction l as [|x l IH]; [congruence|]. intros _. destruct l as [|y l]; [reflexivity|]. change (last (map f (y :: l)) b = f (last (y :: l) a)). now apply IH. Qed.
Lemma sides_sim l : same (CairoSpec.sides (map sim l)) (sims (CairoSpec.sides l)).
Proof. destruct l as [|p l]; [constructor|]. unfold CairoSpec.sides. rewrite (last_map sim (p :: l) (0, 0) (0, 0)) by discriminate. apply joined_sim. Qed.
Lemma traced_same l l' p : same l l' -> traced l p -> traced l' p.
Proof.
  intros S (f & t & J & T0 & E). induction S as [|g g' l l' G S IH]; [destruct J|]. destruct J as [<-|J]; [exists g', t; split; [now left|]; split; [exact T0|]; now rewrite <- G|].
  destruct (IH J) as (f' & t' & J' & R). exists f', t'. split; [now right|exact R].
Qed.
Lemma traced_sim l : alike_shape (traced l) (traced (sims l)).
Proof.
  intro p. split; intros (f & t & J & T0 & E).
  - apply in_map_iff in J as (g & <- & J). exists g, t. split; [exact J|]. split; [exact T0|now apply sim_inj].
  - exists (fun t => sim (f t)), t. split; [apply in_map_iff; eauto|]. split; [exact T0|now rewrite E].
Qed.
Lemma same_sym' l l' : same l l' -> same l' l.
Proof. induction 1; constructor; auto. Qed.

(** ** Marks *)
Variable fill : list curve -> shape.
Hypothesis Fi : filling fill.
Hypothesis Along : forall l, alike_shape (fill l) (fill (sims l)).
Lemma fill_sim l l' : same l' (sims l) -> alike_shape (fill l) (fill l').
Proof. intros S p. rewrite (same_curves fill Fi _ _ _ S). apply Along. Qed.

Definition kx (x x' : Qc) : Prop := real x' = k * real x.
Definition kp (p p' : GerberEval.point) : Prop := real_pt p' = sim (real_pt p).
Definition like_shape (s s' : GerberEval.shape) : Prop :=
  match s, s' with
  | GerberEval.ShCircle x hd hw hh, GerberEval.ShCircle x' hd' hw' hh' => kx x x' /\ kx hd hd' /\ kx hw hw' /\ kx hh hh'
  | GerberEval.ShRect w h hd hw hh, GerberEval.ShRect w' h' hd' hw' hh' => kx w w' /\ kx h h' /\ kx hd hd' /\ kx hw hw' /\ kx hh hh'
  | GerberEval.ShObround w h hd hw hh, GerberEval.ShObround w' h' hd' hw' hh' => kx w w' /\ kx h h' /\ kx hd hd' /\ kx hw hw' /\ kx hh hh'
  | GerberEval.ShPolygon n r rot hd hw hh, GerberEval.ShPolygon n' r' rot' hd' hw' hh' => n' = n /\ kx r r' /\ rot' = rot /\ kx hd hd' /\ kx hw hw' /\ kx hh hh'
  | GerberEval.ShMacro ps, GerberEval.ShMacro ps' => ps' = ps /\ k = 1
  | _, _ => False
  end.
Definition like_opt {A} (r : A -> A -> Prop) (x x' : option A) : Prop := match x, x' with Some x, Some x' => r x x' | None, None => True | _, _ => False end.
(** Pens: their positions do not matter. *)
Definition like_pen (o o' : option GerberEval.obj) : Prop := like_opt (fun o o' => like_shape (GerberEval.o_shape o) (GerberEval.o_shape o')) o o'.
Definition like_seg (v v' : vseg) : Prop :=
  match v, v' with
  | VLine a b o pol _, VLine a' b' o' pol' _ => kp a a' /\ kp b b' /\ like_pen o o' /\ pol' = pol
  | VArc a b c dir o q pol _, VArc a' b' c' dir' o' q' pol' _ => kp a a' /\ kp b b' /\ like_opt kp c c' /\ dir' = dir /\ like_pen o o' /\ q' = q /\ pol' = pol
  | _, _ => False
  end.
Definition like_mark (m m' : mark) : Prop :=
  match m, m' with
  | Stroke v, Stroke v' => like_seg v v'
  | Fill l pol _, Fill l' pol' _ => Forall2 like_seg l l' /\ pol' = pol
  | Stamp o, Stamp o' => like_shape (GerberEval.o_shape o) (GerberEval.o_shape o') /\ like_opt kp (GerberEval.o_pos o) (GerberEval.o_pos o') /\ GerberEval.o_pol o' = GerberEval.o_pol o
  | _, _ => False
  end.

Lemma pen_sim o o' : like_pen o o' -> alike_tool (pen o) (pen o').
Proof.
  intro L. destruct o as [[s c pl u]|], o' as [[s' c' pl' u']|]; try destruct L; [|now intro]. cbn [like_pen like_opt GerberEval.o_shape] in *. destruct s, s'; try (now destruct L); cbn [pen GerberEval.o_shape].
  - destruct L as (D & _). rewrite D. replace (k * real diameter / 2) with (k * (real diameter / 2)) by field. apply disc_mag.
  - destruct L as (W & H & _). rewrite W, H. apply oblong_mag.
  - destruct L as (W & H & _). rewrite W, H. apply capsule_mag.
Qed.
Lemma arc_like a b c dir q a' b' c' : kp a a' -> kp b b' -> kp c c' -> the_arc a' b' c' dir q = sim_arc (the_arc a b c dir q).
Proof. intros A B C. unfold the_arc, sim_arc. cbn [a_start a_end a_center a_dir a_quad]. now rewrite A, B, C. Qed.
Lemma turn_sim c rot x y : CairoSpec.turn (sim c) rot (k * x) (k * y) = sim (CairoSpec.turn c rot x y).
Proof. unfold CairoSpec.turn, similar. cbn [fst snd]. f_equal; ring. Qed.
Lemma holes_sim c rot hd hw hh s s' : alike_shape s s' -> alike_shape (with_holes fill c rot hd hw hh s) (with_holes fill (sim c) rot (k * hd) (k * hw) (k * hh) s').
Proof.
  intros S p. unfold with_holes, without, round_hole, rect_hole. rewrite (S p).
  replace (k * hd / 2) with (k * (hd / 2)) by field. rewrite (disc_sim c (hd / 2) p).
  replace (k * hw / 2) with (k * (hw / 2)) by field. replace (k * hh / 2) with (k * (hh / 2)) by field.
  assert (E : forall x, 0 < k * x <-> 0 < x) by (intro x; split; intro P; [apply Rmult_lt_reg_l with k; lra|now apply Rmult_lt_0_compat]).
  rewrite !E.
  rewrite <- (fill_sim (CairoSpec.sides [CairoSpec.turn c rot (- (hw / 2)) (- (hh / 2)); CairoSpec.turn c rot (hw / 2) (- (hh / 2)); CairoSpec.turn c rot (hw / 2) (hh / 2); CairoSpec.turn c rot (- (hw / 2)) (hh / 2)]) _ (sides_sim _) p).
  cbn [map]. rewrite <- !turn_sim. rewrite <- !Ropp_mult_distr_r. reflexivity.
Qed.
Lemma regular_sim c n r rot : regular (sim c) n (k * r) rot = map sim (regular c n r rot).
Proof. unfold regular. rewrite map_map. apply map_ext. intro i. apply at_angle_sim. Qed.
Lemma placed_sim c rot p : k = 1 -> placed (sim c) rot p = sim (placed c rot p).
Proof. intro E. unfold placed, similar. cbn [fst snd]. rewrite E. f_equal; ring. Qed.
Lemma moved_one c s : k = 1 -> alike_shape (moved c s) (moved (sim c) s).
Proof.
  intros E. apply moved_sim. intro p. unfold magnify. rewrite E. destruct p. cbn [fst snd]. rewrite !Rmult_1_l. reflexivity.
Qed.
Lemma area_sim c a : k = 1 -> alike_shape (area fill c a) (area fill (sim c) a).
Proof.
  intros E. destruct a; cbn [area]; try (now apply moved_one); try (now intro).
  - rewrite (placed_sim _ _ _ E). replace (real diameter / 2) with (k * (real diameter / 2)) at 2 by (rewrite E; lra). apply disc_sim.
  - apply fill_sim. rewrite (map_ext _ (fun p => sim (placed c (real rotation) (real_pt p)))) by (intro; now apply placed_sim). rewrite <- (map_map (fun p => placed c (real rotation) (real_pt p)) sim). apply sides_sim.
  - apply fill_sim. rewrite (map_ext _ (fun i => sim (placed c (real rotation) (polygon_corner (real_pt position) vertices (real diameter) i)))) by (intro; now apply placed_sim).
    rewrite <- (map_map (fun i => placed c (real rotation) (polygon_corner (real_pt position) vertices (real diameter) i)) sim). apply sides_sim.
Qed.

Lemma darkened_sim l l' p q : Forall2 (fun x x' => fst x' = fst x /\ (snd x' q <-> snd x p)) l l' -> darkened l' q <-> darkened l p.
Proof.
  intro F. assert (G : forall p q l l', Forall2 (fun x x' : bool * shape => fst x' = fst x /\ (snd x' q <-> snd x p)) l l' -> darkened l p -> darkened l' q).
  { clear. intros p q l l' F (l1 & s & l2 & -> & S & N). apply Forall2_app_inv_l in F as (l1' & r & F1 & F2 & ->). inversion F2 as [|? [b s'] ? l2' [B S'] F3]; subst. cbn [fst snd] in *. subst b.
    exists l1', s', l2'. split; [reflexivity|]. split; [now apply S'|]. intros s0 J X. apply (forall2_right _ _ _ _ F3) in J as ([b0 s1] & J & B0 & S0). cbn [fst snd] in *. subst b0. exact (N s1 J (proj1 S0 X)). }
  split; [|now apply G]. apply (G q p l' l). clear G. induction F as [|x x' l l' [B S] F IH]; constructor; [|exact IH]. split; [symmetry; exact B|symmetry; exact S].
Qed.
Lemma flashed_sim c s s' : like_shape s s' -> alike_shape (flashed fill c s) (flashed fill (sim c) s').
Proof.
  intro L. destruct s, s'; try (now destruct L); cbn [flashed like_shape] in *.
  - destruct L as (D & Hd & Hw & Hh). rewrite D, Hd, Hw, Hh. apply holes_sim. replace (k * real diameter / 2) with (k * (real diameter / 2)) by field. apply disc_sim.
  - destruct L as (W & H & Hd & Hw & Hh). rewrite W, H, Hd, Hw, Hh. apply holes_sim, moved_sim, oblong_mag.
  - destruct L as (W & H & Hd & Hw & Hh). rewrite W, H, Hd, Hw, Hh. apply holes_sim, moved_sim, capsule_mag.
  - destruct L as (-> & R0 & -> & Hd & Hw & Hh). rewrite R0, Hd, Hw, Hh. apply holes_sim. rewrite regular_sim. apply fill_sim, sides_sim.
  - destruct L as (-> & E). intro p. assert (Q : forall pr, darkened (map (fun a => (exposed a, area fill (sim c) a)) pr) (sim p) <-> darkened (map (fun a => (exposed a, area fill c a)) pr) p).
    { intro pr. apply darkened_sim. induction pr as [|a pr IH]; constructor; [|exact IH]. split; [reflexivity|]. cbn [snd]. now apply area_sim. }
    split; intros (pr & M & D); exists pr; (split; [exact M|]); now apply Q.
Qed.
(** Contours *)
Lemma goes_sim v v' f : like_seg v v' -> goes v f -> exists f', goes v' f' /\ forall t, f' t = sim (f t).
Proof.
  destruct v as [a b o pol u|a b c dir o q pol u], v' as [a' b' o' pol' u'|a' b' c' dir' o' q' pol' u']; intro L; try (now destruct L); cbn [goes like_seg] in *.
  - intros ->. destruct L as (A & B & _). exists (straight (real_pt a') (real_pt b')). split; [reflexivity|]. intro t. rewrite A, B. apply straight_sim.
  - destruct L as (A & B & C & -> & _ & -> & _). destruct c as [c|]; [|intros []]. destruct c' as [c'|]; [|destruct C]. cbn [like_opt] in C. intros (r & f0 & l & Ar & ->).
    eexists. split; [exists (k * r), f0, l; split; [rewrite (arc_like a b c dir q a' b' c' A B C); now apply arc_is_sim|reflexivity]|]. intro t. rewrite C. apply curved_sim.
Qed.
Lemma goes_all : forall l l' cs, Forall2 like_seg l l' -> Forall2 goes l cs -> exists cs', Forall2 goes l' cs' /\ same cs' (sims cs).
Proof.
  intros l l' cs F. revert cs. induction F as [|v v' l l' V F IH]; intros cs G; inversion G; subst; [exists []; split; constructor|].
  destruct (goes_sim v v' y V H1) as (f' & Gf & Ef). destruct (IH l'0 H3) as (cs' & Gs & Es). exists (f' :: cs'). split; constructor; assumption.
Qed.
End Similar.

(** The other way round *)
Section Back.
Variable k : R.
Variable d : pt.
Hypothesis K : 0 < k.
Lemma kx_back x x' : kx k x x' -> kx (/ k) x' x.
Proof. unfold kx. intros ->. field. lra. Qed.
Lemma sim_back p : similar (/ k) (- fst d / k, - snd d / k) (similar k d p) = p.
Proof. destruct p. unfold similar. cbn [fst snd]. f_equal; field; lra. Qed.
Lemma kp_back p p' : kp k d p p' -> kp (/ k) (- fst d / k, - snd d / k) p' p.
Proof. unfold kp. intros ->. now rewrite sim_back. Qed.
Lemma shape_back s s' : like_shape k s s' -> like_shape (/ k) s' s.
Proof.
  destruct s, s'; intro L; try (now destruct L); cbn [like_shape] in *; repeat match goal with H : _ /\ _ |- _ => destruct H end; repeat split; auto using kx_back; subst; try reflexivity. apply Rinv_1.
Qed.
Lemma pen_back o o' : like_pen k o o' -> like_pen (/ k) o' o.
Proof. destruct o, o'; cbn; auto using shape_back. Qed.
Lemma seg_back v v' : like_seg k d v v' -> like_seg (/ k) (- fst d / k, - snd d / k) v' v.
Proof.
  destruct v as [a b o pol u|a b c dir o q pol u], v' as [a' b' o' pol' u'|a' b' c' dir' o' q' pol' u']; intro L; try (now destruct L); cbn [like_seg] in *; repeat match goal with H : _ /\ _ |- _ => destruct H end; repeat split; auto using kp_back, pen_back.
  destruct c, c'; cbn in *; auto using kp_back.
Qed.
End Back.

Section Marks.
Variable k : R.
Variable d : pt.
Hypothesis K : 0 < k.
Notation sim := (similar k d).
Lemma inv_pos : 0 < / k.
Proof. now apply Rinv_0_lt_compat. Qed.
Lemma sim_forth p : sim (similar (/ k) (- fst d / k, - snd d / k) p) = p.
Proof. destruct p. unfold similar. cbn [fst snd]. f_equal; field; lra. Qed.
Lemma goes_from l l' cs' : Forall2 (like_seg k d) l l' -> Forall2 goes l' cs' -> exists cs, Forall2 goes l cs /\ same cs' (sims k d cs).
Proof.
  intros F G. assert (F' : Forall2 (like_seg (/ k) (- fst d / k, - snd d / k)) l' l).
  { clear G. induction F; constructor; [now apply seg_back|assumption]. }
  destruct (goes_all (/ k) (- fst d / k, - snd d / k) inv_pos l' l cs' F' G) as (cs & Gs & S). exists cs. split; [exact Gs|]. clear - S K.
  revert cs S. induction cs' as [|f cs' IH]; intros cs S; unfold same in S; cbn [sims map] in S; inversion S as [|g ? cs0 ? E S']; subst; [constructor|]. cbn [sims map]. constructor; [|now apply IH]. intro t. rewrite E. symmetry. apply sim_forth.
Qed.
Section Filled.
Variable fill : list curve -> shape.
Hypothesis Fi : filling fill.
Hypothesis Along : forall l, alike_shape k d (fill l) (fill (sims k d l)).
Lemma covers_sim m m' : like_mark k d m m' -> alike_shape k d (covers fill m) (covers fill m').
Proof.
  destruct m as [v|l pol u|o], m' as [v'|l' pol' u'|o']; intro L; try (now destruct L); cbn [like_mark] in L.
  - destruct v as [a b o pol u|a b c dir o q pol u], v' as [a' b' o' pol' u'|a' b' c' dir' o' q' pol' u']; try (now destruct L); cbn [like_seg covers] in *.
    + destruct L as (A & B & P & _). rewrite A, B. apply stroke_sim; [exact K|now apply segment_sim|now apply pen_sim].
    + destruct L as (A & B & C & -> & P & -> & _). destruct c as [c|], c' as [c'|]; try (now destruct C). cbn [like_opt] in C. rewrite (arc_like k d a b c dir q a' b' c' A B C).
      apply stroke_sim; [exact K|now apply on_arc_sim|now apply pen_sim].
  - destruct L as [F _]. intro p. cbn [covers]. split; intros (cs & G & X).
    + destruct (goes_from l l' cs F G) as (cs0 & G0 & S). exists cs0. split; [exact G0|]. now apply (fill_sim k d fill Fi Along cs0 cs S p).
    + destruct (goes_all k d K l l' cs F G) as (cs' & G' & S). exists cs'. split; [exact G'|]. now apply (fill_sim k d fill Fi Along cs cs' S p).
  - destruct L as (S & C & _). cbn [covers]. destruct (GerberEval.o_pos o) as [c|], (GerberEval.o_pos o') as [c'|]; try (now destruct C). cbn [like_opt] in C. rewrite C. now apply flashed_sim.
Qed.
Lemma dark_sim m m' : like_mark k d m m' -> dark_mark m' = dark_mark m.
Proof.
  destruct m as [v|l pol u|o], m' as [v'|l' pol' u'|o']; intro L; try (now destruct L); cbn [like_mark dark_mark] in *.
  - destruct v as [a b o pol u|a b c dir o q pol u], v' as [a' b' o' pol' u'|a' b' c' dir' o' q' pol' u']; try (now destruct L); cbn [like_seg] in L; [now destruct L as (_ & _ & _ & ->)|now destruct L as (_ & _ & _ & _ & _ & _ & ->)].
  - now destruct L as [_ ->].
  - destruct L as (_ & _ & ->). reflexivity.
Qed.
Lemma shows_sim ms ms' : Forall2 (like_mark k d) ms ms' -> alike_shape k d (shows fill ms) (shows fill ms').
Proof.
  intros F p. assert (Q : forall ms, shows fill ms = (fun q => exists ms1 m ms2, ms = ms1 ++ m :: ms2 /\ dark_mark m = true /\ covers fill m q /\ forall m', In m' ms2 -> dark_mark m' = false -> ~ covers fill m' q)) by reflexivity.
  split.
  - intros (l1 & m & l2 & -> & D & C & N). apply Forall2_app_inv_r in F as (l1' & r & F1 & F2 & ->). inversion F2 as [|m0 ? l2' ? Lm F3]; subst. exists l1', m0, l2'. split; [reflexivity|].
    split; [now rewrite <- (dark_sim _ _ Lm)|]. split; [now apply (covers_sim _ _ Lm p)|]. intros m' J D' C'. apply (forall2_left _ _ _ _ F3) in J as (m1 & J & L1). apply (N m1 J); [now rewrite (dark_sim _ _ L1)|now apply (covers_sim _ _ L1 p)].
  - intros (l1 & m & l2 & -> & D & C & N). apply Forall2_app_inv_l in F as (l1' & r & F1 & F2 & ->). inversion F2 as [|? m0 ? l2' Lm F3]; subst. exists l1', m0, l2'. split; [reflexivity|].
    split; [now rewrite (dark_sim _ _ Lm)|]. split; [now apply (covers_sim _ _ Lm p)|]. intros m' J D' C'. apply (forall2_right _ _ _ _ F3) in J as (m1 & J & L1). apply (N m1 J); [now rewrite <- (dark_sim _ _ L1)|now apply (covers_sim _ _ L1 p)].
Qed.
(** Which points are looked at *)
Lemma piece_sim m m' x' : like_mark k d m m' -> piece fill m' x' -> exists x, piece fill m x /\ alike_shape k d x x'.
Proof.
  intros L P. pose proof (covers_sim m m' L) as C. destruct m as [v|l pol u|[s c pl u]], m' as [v'|l' pol' u'|[s' c' pl' u']]; try (now destruct L); try (exists (covers fill (Stroke v)); split; [reflexivity|]; cbn [piece] in P; now subst).
  - exists (covers fill (Fill l pol u)). split; [reflexivity|]. cbn [piece] in P. now subst.
  - destruct L as (S & Cp & _). cbn [GerberEval.o_shape GerberEval.o_pos] in *.
    destruct s, s'; try (now destruct S); try (eexists; split; [reflexivity|]; cbn [piece] in P; subst; exact C).
    destruct c as [c|], c' as [c'|]; try (now destruct Cp); cbn [piece] in *; [|eexists; split; [reflexivity|]; subst; exact C]. destruct S as (-> & E). cbn [like_opt] in Cp.
    destruct P as (pr & a & M & J & ->). exists (area fill (real_pt c) a). split; [eauto|]. rewrite Cp. now apply area_sim.
Qed.
Lemma below_sim ms ms' s p : Forall2 (like_mark k d) ms ms' -> below_tops fill (k * s) ms p -> below_tops fill s ms' (sim p).
Proof.
  intros F B m' x' J P X. apply (forall2_right _ _ _ _ F) in J as (m & J & L). destruct (piece_sim m m' x' L P) as (x & Px & A). destruct (B m x J Px) as (q & Q & U); [now apply A|].
  exists (sim q). split; [now apply A|]. unfold similar. cbn [fst snd]. lra.
Qed.
End Filled.
(** The room that the marks take *)
Definition nothing : list curve -> shape := fun _ _ => False.
Lemma nothing_filling : filling nothing.
Proof. constructor; unfold nothing; tauto. Qed.
Lemma nothing_along l : alike_shape k d (nothing l) (nothing (sims k d l)).
Proof. intro p. reflexivity. Qed.
Lemma part_sim c a : k = 1 -> alike_shape k d (part_extent c a) (part_extent (sim c) a).
Proof.
  intros E. pose proof (area_sim k d K nothing nothing_filling nothing_along c a E) as A. destruct a; try exact A; cbn [part_extent].
  - rewrite (map_ext (fun p => placed (sim c) (real rotation) (real_pt p)) (fun p => sim (placed c (real rotation) (real_pt p)))) by (intro; now apply placed_sim). rewrite <- (map_map (fun p => placed c (real rotation) (real_pt p)) sim).
    intro p. rewrite <- (traced_sim k d K _ p). split; apply traced_same; [apply sides_sim|apply same_sym', sides_sim].
  - rewrite (placed_sim k d _ _ _ E). replace (real diameter / 2) with (k * (real diameter / 2)) at 2 by (rewrite E; lra). now apply disc_sim.
Qed.
Lemma extent_sim m m' : like_mark k d m m' -> alike_shape k d (extent m) (extent m').
Proof.
  intro L. destruct m as [v|l pol u|o], m' as [v'|l' pol' u'|o']; try (now destruct L); cbn [extent].
  - exact (covers_sim nothing nothing_filling nothing_along (Stroke v) (Stroke v') L).
  - destruct L as [F _]. intro p. split; intros (cs & G & X).
    + destruct (goes_from l l' cs F G) as (cs0 & G0 & S). exists cs0. split; [exact G0|]. apply (traced_sim k d K cs0 p). exact (traced_same _ _ _ S X).
    + destruct (goes_all k d K l l' cs F G) as (cs' & G' & S). exists cs'. split; [exact G'|]. apply (traced_same _ _ _ (same_sym' _ _ S)). now apply traced_sim.
  - destruct L as (S & C & _). destruct (GerberEval.o_pos o) as [c|], (GerberEval.o_pos o') as [c'|]; try (now destruct C). cbn [like_opt] in C. rewrite C.
    destruct (GerberEval.o_shape o), (GerberEval.o_shape o'); try (now destruct S); cbn [flash_extent like_shape] in *.
    + destruct S as (D & _). rewrite D. replace (k * real diameter / 2) with (k * (real diameter / 2)) by field. now apply disc_sim.
    + destruct S as (W & H & _). rewrite W, H. apply moved_sim, oblong_mag, K.
    + destruct S as (W & H & _). rewrite W, H. apply moved_sim, capsule_mag, K.
    + destruct S as (_ & R0 & _). rewrite R0. now apply disc_sim.
    + destruct S as (-> & E). intro p. split; intros (pr & a & M & J & X); exists pr, a; (split; [exact M|]); (split; [exact J|]); now apply (part_sim _ a E p).
Qed.
Lemma file_box_sim ms ms' b : Forall2 (like_mark k d) ms ms' -> file_box ms b -> file_box ms' (similar_box k d b).
Proof.
  intros F [E T]. assert (Q : alike_shape k d (fun p => exists m, In m ms /\ extent m p) (fun p => exists m, In m ms' /\ extent m p)).
  { intro p. split; intros (m & J & X).
    - apply (forall2_right _ _ _ _ F) in J as (m0 & J & L). exists m0. split; [exact J|]. now apply (extent_sim _ _ L p).
    - apply (forall2_left _ _ _ _ F) in J as (m0 & J & L). exists m0. split; [exact J|]. now apply (extent_sim _ _ L p). }
  split.
  - intros p' X. destruct (sim_onto k d K p') as (p & ->). apply Q in X. apply E in X. destruct b as [[x0 x1] [y0 y1]]. unfold inside, similar_box, similar in *. cbn [fst snd] in *.
    destruct X as [[A B] [C D]]. apply (Rmult_le_compat_l k) in A; [|lra]. apply (Rmult_le_compat_l k) in B; [|lra]. apply (Rmult_le_compat_l k) in C; [|lra]. apply (Rmult_le_compat_l k) in D; [|lra]. lra.
  - destruct T as ((p1 & P1 & E1) & (p2 & P2 & E2) & (p3 & P3 & E3) & (p4 & P4 & E4)). destruct b as [[x0 x1] [y0 y1]]. unfold touches, similar_box. cbn [fst snd] in *.
    split; [exists (sim p1)|split; [exists (sim p2)|split; [exists (sim p3)|exists (sim p4)]]]; (split; [now apply Q|]); unfold similar; cbn [fst snd]; congruence.
Qed.
Lemma extents_sim ms ms' : Forall2 (like_mark k d) ms ms' -> Forall (fun m => exists q, extent m q) ms -> Forall (fun m => exists q, extent m q) ms'.
Proof. induction 1 as [|m m' ms ms' L F IH]; intro X; [constructor|]. inversion X as [|? ? (q & Q) X']; subst. constructor; [|now apply IH]. exists (sim q). now apply (extent_sim _ _ L q). Qed.
(** Fair marks *)
Lemma kx_pos x x' : kx k x x' -> 0 < real x -> 0 < real x'.
Proof. intros -> P. now apply Rmult_lt_0_compat. Qed.
Lemma kx_nonneg x x' : kx k x x' -> 0 <= real x -> 0 <= real x'.
Proof. intros -> P. apply Rmult_le_pos; lra. Qed.
Lemma kx_nonpos x x' : kx k x x' -> real x <= 0 -> real x' <= 0.
Proof. intros -> P. apply (Rmult_le_compat_l k) in P; lra. Qed.
Lemma no_hole_sim a b c a' b' c' : kx k a a' -> kx k b b' -> kx k c c' -> no_hole a b c -> no_hole a' b' c'.
Proof. intros A B C [X Y]. split; [now apply (kx_nonpos a)|]. destruct Y as [Y|Y]; [left; now apply (kx_nonpos b)|right; now apply (kx_nonpos c)]. Qed.
Lemma kp_inj p q p' q' : kp k d p p' -> kp k d q q' -> p = q -> p' = q'.
Proof. unfold kp. intros P Q ->. apply real_pt_inj. congruence. Qed.
Lemma from_sim v v' : like_seg k d v v' -> kp k d (from v) (from v').
Proof. destruct v, v'; intro L; try (now destruct L); now destruct L. Qed.
Lemma upto_sim v v' : like_seg k d v v' -> kp k d (upto v) (upto v').
Proof. destruct v, v'; intro L; try (now destruct L); now destruct L as (_ & ? & _). Qed.
Lemma follows_sim : forall l l' a a' b b', Forall2 (like_seg k d) l l' -> kp k d a a' -> kp k d b b' -> follows a l b -> follows a' l' b'.
Proof.
  induction l as [|v l IH]; intros l' a a' b b' F A B H; inversion F as [|? v' ? l0 V F0]; subst; cbn [follows] in *; [now apply (kp_inj a b)|]. destruct H as [H1 H2].
  split; [exact (kp_inj _ _ _ _ (from_sim v v' V) A H1)|]. exact (IH l0 (upto v) (upto v') b b' F0 (upto_sim v v' V) B H2).
Qed.
Lemma fair_seg_sim v v' : like_seg k d v v' -> fair_seg v -> fair_seg v'.
Proof.
  destruct v as [a b o pol u|a b c dir o q pol u], v' as [a' b' o' pol' u'|a' b' c' dir' o' q' pol' u']; intro L; try (now destruct L); cbn [like_seg fair_seg] in *.
  destruct L as (A & B & C & -> & _ & -> & _). destruct c as [c|]; [|intros []]. destruct c' as [c'|]; [|destruct C]. rewrite (arc_like k d a b c dir q a' b' c' A B C). now apply fair_arc_sim.
Qed.
Lemma line_pen_sim o o' : like_shape k (GerberEval.o_shape o) (GerberEval.o_shape o') -> line_pen o -> line_pen o'.
Proof.
  unfold line_pen. destruct (GerberEval.o_shape o), (GerberEval.o_shape o'); intro L; try (now destruct L); cbn [like_shape] in L; try tauto.
  - destruct L as (D & A & B & C). intros [P N]. split; [now apply (kx_pos diameter)|exact (no_hole_sim _ _ _ _ _ _ A B C N)].
  - destruct L as (W & H & A & B & C). intros (P & Q & N). split; [now apply (kx_pos w)|]. split; [now apply (kx_pos h)|exact (no_hole_sim _ _ _ _ _ _ A B C N)].
Qed.
Lemma arc_pen_sim o o' : like_shape k (GerberEval.o_shape o) (GerberEval.o_shape o') -> arc_pen o -> arc_pen o'.
Proof.
  unfold arc_pen. destruct (GerberEval.o_shape o), (GerberEval.o_shape o'); intro L; try (now destruct L); cbn [like_shape] in L; try tauto.
  destruct L as (D & A & B & C). intros [P N]. split; [now apply (kx_pos diameter)|exact (no_hole_sim _ _ _ _ _ _ A B C N)].
Qed.
Lemma fair_flash_sim b s s' : like_shape k s s' -> fair_flash b s -> fair_flash b s'.
Proof.
  destruct s, s'; intro L; try (now destruct L); cbn [like_shape fair_flash] in *.
  - destruct L as (D & A & B & C). intros [P N]. split; [now apply (kx_pos diameter)|]. destruct N as [N|[N|N]]; [now left|right; left; now apply (kx_nonpos hole_w)|right; right; now apply (kx_nonpos hole_h)].
  - destruct L as (W & H & A & B & C). intros (P & Q & N). split; [now apply (kx_pos w)|]. split; [now apply (kx_pos h)|]. destruct N as [N|N]; [now left|right; exact (no_hole_sim _ _ _ _ _ _ A B C N)].
  - destruct L as (W & H & A & B & C). intros (P & Q). split; [now apply (kx_pos w)|now apply (kx_pos h)].
  - destruct L as (-> & R0 & -> & A & B & C). intros (P & Q & N). split; [exact P|]. split; [now apply (kx_nonneg radius)|]. destruct N as [N|N]; [now left|right; exact (no_hole_sim _ _ _ _ _ _ A B C N)].
  - now destruct L as (-> & _).
Qed.
Lemma fair_sim m m' : like_mark k d m m' -> fair m -> fair m'.
Proof.
  intro L. pose proof (dark_sim m m' L) as Dk. destruct m as [v|l pol u|o], m' as [v'|l' pol' u'|o']; try (now destruct L); cbn [fair].
  - destruct v as [a b o pol u|a b c dir o q pol u], v' as [a' b' o' pol' u'|a' b' c' dir' o' q' pol' u']; try (now destruct L); cbn [like_mark like_seg] in L.
    + destruct L as (_ & _ & P & _). destruct o as [o|]; [|intros []]. destruct o' as [o'|]; [|destruct P]. now apply line_pen_sim.
    + destruct L as (A & B & C & -> & P & -> & _). destruct c as [c|]; [|intros []]. destruct o as [o|]; [|intros []]. destruct c' as [c'|]; [|destruct C]. destruct o' as [o'|]; [|destruct P].
      intros [X Y]. split; [now apply (arc_pen_sim o)|]. rewrite (arc_like k d a b c dir q a' b' c' A B C). now apply fair_arc_sim.
  - destruct L as [F _]. intros (v & l0 & -> & Fo & Fa). inversion F as [|? v' ? l0' V F0]; subst. exists v', l0'. split; [reflexivity|]. split.
    + exact (follows_sim _ _ _ _ _ _ F (from_sim v v' V) (from_sim v v' V) Fo).
    + clear Fo V F0 Dk. revert Fa. induction F as [|x x' l l' X F IH]; intro Fa; [constructor|]. inversion Fa; subst. constructor; [now apply (fair_seg_sim x)|now apply IH].
  - destruct L as (S & C & P). intros [N Q]. split; [destruct (GerberEval.o_pos o), (GerberEval.o_pos o'); cbn in C; congruence|]. rewrite Dk. now apply (fair_flash_sim _ (GerberEval.o_shape o)).
Qed.
Lemma fairs_sim ms ms' : Forall2 (like_mark k d) ms ms' -> Forall fair ms -> Forall fair ms'.
Proof. induction 1 as [|m m' ms ms' L F IH]; intro X; [constructor|]. inversion X; subst. constructor; [now apply (fair_sim m)|now apply IH]. Qed.
Lemma pixel_sim s b p : pixel s (similar_box k d b) false (sim p) = pixel (k * s) b false p.
Proof. unfold pixel, similar_box, similar. cbn [fst snd]. f_equal; ring. Qed.
End Marks.
