(** Flashed macros in images. *)
From Coq Require Import Lra Lia Qreals.
From Verif Require Import PyBase QcLib GeomModel GeomSpec GeomProofs HullModel HullSpec HullProofs CairoModel CairoSpec CairoProofs CairoLayer CairoMore CairoScale FloatCodec MacroModel AmModel AmSpec AmProofs MacroGeomModel MacroGeomSpec MacroGeomProofs ShowModel ShowSpec.
From Verif Require GerberEval GerberEvalSpec.
Import ListNotations GerberEvalSpec.
Open Scope R_scope.
Open Scope list_scope.

(** ** Polygons *)
Lemma straight_inside b (a c : pt) t : inside b a -> inside b c -> 0 <= t <= 1 -> inside b (straight a c t).
Proof. unfold inside, straight. cbn [fst snd]. intros [A1 A2] [B1 B2] T. nra. Qed.
Lemma joined_inside b : forall l from, inside b from -> (forall p, In p l -> inside b p) -> encloses b (traced (joined from l)).
Proof.
  induction l as [|q l IH]; intros from F A p (f & t & J & T & ->); [destruct J|]. cbn [joined] in J. destruct J as [<-|J].
  - apply straight_inside; auto. apply A. now left.
  - apply (IH q); [apply A; now left|intros; apply A; now right|]. exists f, t. auto.
Qed.
Lemma last_in {A} (l : list A) d : l <> [] -> In (last l d) l.
Proof.
  induction l as [|x l IH]; [congruence|]. intros _. destruct l as [|y l]; [now left|]. right. apply (IH ltac:(discriminate)).
Qed.
Lemma sides_inside b l : (forall p, In p l -> inside b p) -> encloses b (traced (CairoSpec.sides l)).
Proof.
  intros A. destruct l as [|x l]; [intros p (f & t & J & _); destruct J|]. apply joined_inside; [|exact A]. apply A. now apply last_in.
Qed.

(** ** Rectangles are convex *)
Section Box.
Variables o u v : pt.
Hypothesis D : 0 < fst u * snd v - snd u * fst v.
Definition corner (s t : R) : pt := (fst o + s * fst u + t * fst v, snd o + s * snd u + t * snd v).
Definition box_corners : list pt := [corner (-1) 1; corner (-1) (-1); corner 1 (-1); corner 1 1].
Lemma corner_inj s t s' t' : corner s t = corner s' t' -> s = s' /\ t = t'.
Proof.
  unfold corner. intro E. injection E as E1 E2.
  assert (A : (s - s') * fst u + (t - t') * fst v = 0) by lra. assert (B : (s - s') * snd u + (t - t') * snd v = 0) by lra.
  assert (P : (s - s') * (fst u * snd v - snd u * fst v) = 0).
  { transitivity (snd v * ((s - s') * fst u + (t - t') * fst v) - fst v * ((s - s') * snd u + (t - t') * snd v)); [ring|rewrite A, B; ring]. }
  assert (Q : (t - t') * (fst u * snd v - snd u * fst v) = 0).
  { transitivity (fst u * ((s - s') * snd u + (t - t') * snd v) - snd u * ((s - s') * fst u + (t - t') * fst v)); [ring|rewrite A, B; ring]. }
  apply Rmult_integral in P, Q. split; [destruct P; lra|destruct Q; lra].
Qed.
Lemma box_side a b : In (a, b) (HullSpec.sides box_corners) -> a <> b /\ exists s t s' t', a = corner s t /\ b = corner s' t' /\
  ((s = -1 /\ t = 1 /\ s' = -1 /\ t' = -1) \/ (s = -1 /\ t = -1 /\ s' = 1 /\ t' = -1) \/ (s = 1 /\ t = -1 /\ s' = 1 /\ t' = 1) \/ (s = 1 /\ t = 1 /\ s' = -1 /\ t' = 1)).
Proof.
  unfold HullSpec.sides, box_corners. cbn [app combine In]. intros [E|[E|[E|[E|[]]]]]; injection E as <- <-; (split; [intro E; apply corner_inj in E; lra|]).
  - exists (-1), 1, (-1), (-1). split; [reflexivity|]. split; [reflexivity|]. lra.
  - exists (-1), (-1), 1, (-1). split; [reflexivity|]. split; [reflexivity|]. lra.
  - exists 1, (-1), 1, 1. split; [reflexivity|]. split; [reflexivity|]. lra.
  - exists 1, 1, (-1), 1. split; [reflexivity|]. split; [reflexivity|]. lra.
Qed.
Lemma cross_corners s t s' t' x y : cross (corner s t) (corner s' t') (corner x y) = ((s' - s) * (y - t) - (t' - t) * (x - s)) * (fst u * snd v - snd u * fst v).
Proof. unfold cross, corner. cbn [fst snd]. ring. Qed.
Lemma box_in p : In p box_corners -> exists x y, p = corner x y /\ (x = -1 \/ x = 1) /\ (y = -1 \/ y = 1).
Proof. cbn [box_corners In]. intros [<-|[<-|[<-|[<-|[]]]]]; do 2 eexists; (split; [reflexivity|]); lra. Qed.
Lemma in_box x y : x = -1 \/ x = 1 -> y = -1 \/ y = 1 -> In (corner x y) box_corners.
Proof. intros [->| ->] [->| ->]; cbn [box_corners In]; tauto. Qed.
Lemma box_point p : exists x y, p = corner x y.
Proof.
  exists (((fst p - fst o) * snd v - (snd p - snd o) * fst v) / (fst u * snd v - snd u * fst v)), (((snd p - snd o) * fst u - (fst p - fst o) * snd u) / (fst u * snd v - snd u * fst v)).
  unfold corner. destruct p as [x y]. cbn [fst snd]. f_equal; field; lra.
Qed.
Lemma box_hull : is_hull box_corners box_corners.
Proof.
  constructor.
  - auto.
  - intros a b p S P. destruct (box_side a b S) as (N & s & t & s' & t' & -> & -> & K). split; [exact N|]. destruct (box_in p P) as (x & y & -> & X & Y). rewrite cross_corners.
    apply Rmult_le_pos; [|lra]. destruct X, Y, K as [K|[K|[K|K]]]; destruct K as (-> & -> & -> & ->); subst; lra.
  - intros w p L. destruct (box_point p) as (x & y & ->).
    assert (B : -1 <= x <= 1 /\ -1 <= y <= 1).
    { assert (S : forall s t s' t', In (corner s t, corner s' t') (HullSpec.sides box_corners) -> 0 <= (s' - s) * (y - t) - (t' - t) * (x - s)).
      { intros s t s' t' J. pose proof (L _ _ J) as C. rewrite cross_corners in C. apply Rmult_le_reg_r with (fst u * snd v - snd u * fst v); [exact D|lra]. }
      pose proof (S (-1) 1 (-1) (-1) (or_introl eq_refl)). pose proof (S (-1) (-1) 1 (-1) (or_intror (or_introl eq_refl))).
      pose proof (S 1 (-1) 1 1 (or_intror (or_intror (or_introl eq_refl)))). pose proof (S 1 1 (-1) 1 (or_intror (or_intror (or_intror (or_introl eq_refl))))). lra. }
    set (a := along w u). set (b := along w v).
    assert (E : forall x y, along w (corner x y) = along w o + x * a + y * b) by (intros; unfold a, b, along, corner; cbn [fst snd]; ring).
    exists (corner (if Rle_dec 0 a then 1 else -1) (if Rle_dec 0 b then 1 else -1)). split; [apply in_box; [destruct (Rle_dec 0 a)|destruct (Rle_dec 0 b)]; tauto|].
    rewrite !E. destruct (Rle_dec 0 a), (Rle_dec 0 b); nra.
  - intros c J. destruct (box_in c J) as (x & y & -> & X & Y). set (d := fst u * snd v - snd u * fst v) in *.
    exists ((x * snd v - y * snd u) / d, (y * fst u - x * fst v) / d). intros p P N. destruct (box_in p P) as (x' & y' & -> & X' & Y').
    assert (E : forall s t, along ((x * snd v - y * snd u) / d, (y * fst u - x * fst v) / d) (corner s t) = along ((x * snd v - y * snd u) / d, (y * fst u - x * fst v) / d) o + x * s + y * t).
    { intros s t. unfold along, corner. cbn [fst snd]. unfold d in *. field. lra. }
    rewrite !E. assert (x <> x' \/ y <> y') as K.
    { destruct (Req_EM_T x x') as [->|]; [|now left]. destruct (Req_EM_T y y') as [->|]; [|now right]. congruence. }
    destruct X as [->| ->], Y as [->| ->], X' as [->| ->], Y' as [->| ->]; destruct K as [K|K]; lra.
  - unfold box_corners.
    constructor; [|constructor; [|constructor; [|constructor; [intros []|constructor]]]]; cbn [In]; intro J.
    + destruct J as [J|[J|[J|[]]]]; apply corner_inj in J; lra.
    + destruct J as [J|[J|[]]]; apply corner_inj in J; lra.
    + destruct J as [J|[]]; apply corner_inj in J; lra.
Qed.
End Box.

(** ** Moving *)
Lemma cross_shift c u v p : cross (shift c u) (shift c v) p = cross u v (fst p - fst c, snd p - snd c).
Proof. unfold cross, shift. cbn [fst snd]. ring. Qed.
Lemma left_shift c l p : left_of_all (map (shift c) l) p <-> moved c (left_of_all l) p.
Proof.
  unfold left_of_all, moved. split.
  - intros H u v S. rewrite <- cross_shift. apply H. apply sides_map. exists u, v. auto.
  - intros H u v S. apply sides_map in S as (u' & v' & S & -> & ->). rewrite cross_shift. now apply H.
Qed.
Lemma shifted_corners c lines : corners (map (fun l : pt * pt => (shift c (fst l), shift c (snd l))) lines) = map (shift c) (corners lines).
Proof. unfold corners. rewrite !map_map. reflexivity. Qed.
Lemma placed_shift c rot p : shift c (rotate_point p rot (0, 0)) = placed c rot p.
Proof. unfold placed. rewrite rotate_is. unfold shift. cbn [fst snd]. f_equal; ring. Qed.
Lemma placed_zero c p : placed c 0 p = shift c p.
Proof. unfold placed, shift. rewrite Rmult_0_l. unfold Rdiv. rewrite Rmult_0_l, cos_0, sin_0. f_equal; ring. Qed.

(** ** Outlines are rendered as the polygon of the ends of their lines *)
Definition same_render (fill : list curve -> shape) (d d' : drawn) : Prop := forall c layer, render fill c d layer = render fill c d' layer.
Lemma outline_mask fill c dk (l : list (pt * pt)) x : fst x = snd (last l x) -> hd_error l = Some x ->
  mask fill c dk (PRegion (map (fun l => SLine (fst l) (snd l)) l)) = mask fill c dk (PHull (corners l)).
Proof.
  intros E H. destruct l as [|y l]; [discriminate|]. injection H as ->. cbn [mask map]. unfold polygon_path, corners. cbn [map bind seg_start]. do 3 f_equal. unfold closed.
  assert (A : scale_point c (fst x) = last (scale_point c (snd x) :: map (scale_point c) (map snd l)) (scale_point c (snd x))).
  { rewrite E. change (scale_point c (snd x) :: map (scale_point c) (map snd l)) with (map (scale_point c) (map snd (x :: l))). rewrite map_map.
    rewrite (last_map_any (fun y => scale_point c (snd y)) (x :: l) _ x) by discriminate. reflexivity. }
  rewrite <- A. assert (B : map (seg_cmd c) (map (fun l0 => SLine (fst l0) (snd l0)) l) = map LineTo (map (scale_point c) (map snd l))).
  { rewrite !map_map. reflexivity. }
  cbn [seg_cmd]. rewrite B. reflexivity.
Qed.
Lemma outline_render fill on b (l : list (pt * pt)) x : fst x = snd (last l x) -> hd_error l = Some x ->
  same_render fill (mkDrawn on b (PRegion (map (fun l => SLine (fst l) (snd l)) l))) (mkDrawn on b (PHull (corners l))).
Proof. intros E H c layer. unfold render. cbn [dark what bbox]. now rewrite (outline_mask fill c on l x E H). Qed.

(** The box of an outline encloses the ends of its lines. *)
Lemma outline_box_inside (l : list (pt * pt)) b : boxes_box (map (fun l => line_box_round (fst l) (snd l) 0) l) = Some b -> forall p, In p (corners l) -> inside b p.
Proof.
  intros B p P. assert (F : Forall2 bounds (map (fun l => line_box_round (fst l) (snd l) 0) l) (map (fun l => stroke (segment (fst l) (snd l)) (disc (0, 0) (0 / 2))) l)).
  { clear. induction l as [|x l IH]; cbn [map]; constructor; [|exact IH]. apply line_round_bounds. lra. }
  destruct (boxes_bounds _ _ _ F B) as [E _]. apply E. apply in_map_iff in P as (x & <- & J). exists (stroke (segment (fst x) (snd x)) (disc (0, 0) (0 / 2))). split.
  - apply in_map_iff. eauto.
  - exists (snd x), (0, 0). split; [exists 1; split; [lra|]; destruct (snd x); cbn [fst snd]; f_equal; ring|]. split; [unfold disc, dist2; cbn [fst snd]; lra|]. destruct (snd x). cbn [fst snd]. f_equal; ring.
Qed.

(** ** The parts *)
Section Parts.
Variable fill : list curve -> shape.
Hypothesis Se : sensible fill.
Definition sound (d : drawn) : Prop := encloses (bbox d) (prim_shape fill (what d)) /\ simple (what d) /\ solid (what d).
(** A drawn part: replaced by one which renders the same, is as it should be and covers the right area. *)
Definition part_ok (c : pt) (a : amprim) (d' : drawn) : Prop :=
  dark d' = exposed a /\ sound d' /\ removable (what d') /\ forall q, prim_shape fill (what d') q <-> area fill c a q.
Lemma sound_polygon on b vs c rot : vs <> [] -> (forall p, In p vs -> inside b p) -> sound (mkDrawn on b (PPolygon c vs rot 0 0 0)).
Proof.
  intros N I0. split; [|split; [exact N|]].
  - cbn [bbox what prim_shape]. intros p [[P _] _]. revert p P. apply (s_inside _ Se). now apply sides_inside.
  - cbn. unfold no_holes. lra.
Qed.
Lemma no_holes_iff c rot s q : with_holes fill c rot 0 0 0 s q <-> s q.
Proof. unfold with_holes, without, round_hole, rect_hole. split; [tauto|]. intro S. split; [split; [exact S|]|]; intros [? _]; lra. Qed.
Lemma vertices_box c n r rot p : 0 <= r -> In p (map (polygon_vertex c n r rot) (seq 0 n)) -> inside (polygon_box c r) p.
Proof. intros R J. apply in_map_iff in J as (i & <- & _). exact (proj1 (disc_bounds c r R) _ (vertex_disc c n r rot i R)). Qed.
Lemma vertex_shift c p n r rot i : polygon_vertex (shift c p) n r rot i = shift c (polygon_vertex p n r rot i).
Proof. unfold polygon_vertex. rewrite !rotate_is. unfold shift. cbn [fst snd]. f_equal; ring. Qed.
Lemma outline_part c on lines x : fst x = snd (last lines x) -> hd_error lines = Some x ->
  exists d d', view_part c (on, ShowOutline lines) = Ok d /\ same_render fill d d' /\ dark d' = on /\ sound d' /\ removable (what d') /\
    what d' = PHull (map (shift c) (corners lines)).
Proof.
  intros E H. cbn [view_part]. set (lines' := map _ lines).
  destruct lines as [|y l]; [discriminate|]. injection H as ->.
  destruct (boxes_box (map (fun l0 => line_box_round (fst l0) (snd l0) 0) lines')) as [b|] eqn:B; [|discriminate B].
  exists (mkDrawn on b (PRegion (map (fun l0 => SLine (fst l0) (snd l0)) lines'))), (mkDrawn on b (PHull (corners lines'))). split; [reflexivity|]. split; [|split; [reflexivity|split; [|split; [exact I|]]]].
  - apply (outline_render fill on b lines' (shift c (fst x), shift c (snd x))); [|reflexivity]. cbn [fst]. rewrite E. unfold lines'.
    rewrite (last_map_any (fun l0 : pt * pt => (shift c (fst l0), shift c (snd l0))) (x :: l) _ x) by discriminate. reflexivity.
  - split; [|split; [discriminate|exact I]]. cbn [bbox what prim_shape]. apply (s_inside _ Se). apply sides_inside. now apply outline_box_inside.
  - cbn [what]. unfold lines'. now rewrite shifted_corners.
Qed.
Lemma center_hull c q w h rot : 0 < w -> 0 < h -> exists points, is_hull points (map (shift c) (map (fun p => rotate_point p rot q) (center_points q w h))).
Proof.
  intros W H. set (C := cos (rot * PI / 180)). set (S := sin (rot * PI / 180)).
  assert (Q : S * S + C * C = 1) by apply sc2.
  assert (Dt : 0 < fst (C * w / 2, S * w / 2) * snd (- S * h / 2, C * h / 2) - snd (C * w / 2, S * w / 2) * fst (- S * h / 2, C * h / 2)).
  { cbn [fst snd]. replace (C * w / 2 * (C * h / 2) - S * w / 2 * (- S * h / 2)) with ((S * S + C * C) * (w * h / 4)) by field. rewrite Q. assert (0 < w * h) by (apply Rmult_lt_0_compat; assumption). lra. }
  exists (box_corners (shift c q) (C * w / 2, S * w / 2) (- S * h / 2, C * h / 2)).
  replace (map (shift c) (map (fun p => rotate_point p rot q) (center_points q w h))) with (box_corners (shift c q) (C * w / 2, S * w / 2) (- S * h / 2, C * h / 2)); [apply box_hull; exact Dt|].
  unfold box_corners, center_points, corner, shift. destruct q as [x y]. cbn [map fst snd]. rewrite !rotate_is. cbn [fst snd]. fold C S. repeat (apply f_equal2; [apply f_equal2; field|]). reflexivity.
Qed.
Lemma part_shown c a : drawn_part a -> (forall on s l r, a = AOutline on s l r -> l <> [] /\ last l (0, 0)%Qc = s) -> (forall on n p d r, a = APolygon on n p d r -> (0 < n)%Z) ->
  exists x d d', to_primitive a = Ok [x] /\ view_part c x = Ok d /\ same_render fill d d' /\ part_ok c a d'.
Proof.
  intros F Ol Po. destruct a as [|on d p|?|on s l r|on n p d r|?|?|on w h q r|?|?]; try contradiction; cbn [drawn_part] in F.
  - rename F into D. exists (on, ShowCircle (real_pt p) (real d)). do 2 eexists. split; [reflexivity|]. split; [reflexivity|]. split; [intros ? ?; reflexivity|].
    split; [reflexivity|]. cbn [view_part area]. rewrite placed_zero. split; [|split; [cbn; lra|intro q; apply no_holes_iff]]. split; [|split; [exact D|cbn; lra]].
    cbn [bbox what prim_shape]. intros q [[P _] _]. revert q P. apply circle_bounds. lra.
  - destruct (Ol _ _ _ _ eq_refl) as [N L]. set (f := fun p => rotate_point p (real r) (0, 0)).
    exists (on, ShowOutline (join_lines (f (real_pt s)) (map f (map real_pt l)))).
    assert (Nl : map f (map real_pt l) <> []) by (destruct l; [congruence|discriminate]).
    assert (La : last (map f (map real_pt l)) (0, 0) = f (real_pt s)).
    { rewrite map_map. rewrite (last_map_any (fun p => f (real_pt p)) l _ (0, 0)%Qc N). now rewrite L. }
    assert (HL : forall z, snd (last (join_lines (f (real_pt s)) (map f (map real_pt l))) z) = f (real_pt s)) by (intro z; rewrite last_join by exact Nl; exact La).
    destruct (map f (map real_pt l)) as [|y ys] eqn:M; [congruence|].
    destruct (outline_part c on (join_lines (f (real_pt s)) (y :: ys)) (f (real_pt s), y)) as (d & d' & V & R & Dk & Inv & Rm & Wh); [cbn [fst]; now rewrite HL|reflexivity|].
    exists d, d'. split; [|split; [exact V|split; [exact R|split; [exact Dk|split; [exact Inv|split; [exact Rm|]]]]]].
    + cbn [to_primitive]. unfold single, am_outline, outline_of. fold f. change (rotate_point (real_pt s) (real r) (0, 0)) with (f (real_pt s)). rewrite M. cbn [join_lines]. cbn [fst].
      change ((f (real_pt s), y) :: join_lines y ys) with (join_lines (f (real_pt s)) (y :: ys)). rewrite HL.
      replace (pt_eqb (f (real_pt s)) (f (real_pt s))) with true by (symmetry; now apply pt_eqb_is). reflexivity.
    + intro q. rewrite Wh. cbn [prim_shape area]. rewrite (joins_corners _ _ _ (join_lines_joins (f (real_pt s)) (y :: ys))), <- M, !map_map.
      rewrite (map_ext (fun x => shift c (f (real_pt x))) (fun p => placed c (real r) (real_pt p))) by (intro; apply placed_shift). reflexivity.
  - destruct F as (D & O). pose proof (Po _ _ _ _ _ eq_refl) as N. exists (on, ShowPolygon (real_pt p) n (real d / 2) (real r)). cbn [to_primitive view_part]. unfold view_polygon.
    destruct (Z.eqb_spec n 0); [lia|]. do 2 eexists. split; [reflexivity|]. split; [reflexivity|]. split; [intros ? ?; reflexivity|]. split; [reflexivity|].
    split; [|split; [cbn; unfold no_holes; lra|]].
    + apply sound_polygon.
      * intro Nil. apply (f_equal (@List.length pt)) in Nil. rewrite map_length, seq_length in Nil. cbn in Nil. lia.
      * intros q J. apply vertices_box in J; [exact J|lra].
    + intro q. cbn [what prim_shape area]. rewrite no_holes_iff.
      rewrite (map_ext (polygon_vertex (shift c (real_pt p)) (Z.to_nat n) (real d / 2) (real r)) (fun i => placed c (real r) (polygon_corner (real_pt p) n (real d) i))); [reflexivity|].
      intro i. rewrite vertex_shift. rewrite (polygon_turned (real_pt p) n (real d) (real r) i N).
      * unfold placed, shift. cbn zeta. cbn [fst snd]. f_equal; ring.
      * destruct O as [-> | ->]; [left; unfold real_pt, origin; cbn [fst snd]; now rewrite real_0|right; apply real_0].
  - destruct F as (W & H & O). assert (O' : real_pt q = origin \/ real r = 0).
    { destruct O as [-> | ->]; [left; unfold real_pt, origin; cbn [fst snd]; now rewrite real_0|right; apply real_0]. }
    destruct (center_line_right (real_pt q) (real w) (real h) (real r) W H O') as (lines & E & L). rewrite center_line_is in E. apply ok_inj in E. injection E as E.
    set (p0 := rotate_point (nth 3 (center_points (real_pt q) (real w) (real h)) (0, 0)) (real r) (real_pt q)) in *.
    assert (Co : corners lines = map (fun p => rotate_point p (real r) (real_pt q)) (center_points (real_pt q) (real w) (real h))) by (rewrite <- E; reflexivity).
    assert (Hd : exists x, hd_error lines = Some x /\ fst x = snd (last lines x)).
    { rewrite <- E. unfold p0. destruct (real_pt q) as [x0 y0]. eexists. split; reflexivity. }
    destruct Hd as (x & Hx & Fx). destruct (outline_part c on lines x Fx Hx) as (d & d' & V & R & Dk & Inv & Rm & Wh).
    exists (on, ShowOutline lines), d, d'. split; [|split; [exact V|split; [exact R|split; [exact Dk|split; [exact Inv|split; [exact Rm|]]]]]].
    + cbn [to_primitive]. unfold single. rewrite center_line_is. exact (f_equal (fun l => Ok [(on, ShowOutline l)]) E).
    + intro p. rewrite Wh. cbn [prim_shape area]. destruct (center_hull c (real_pt q) (real w) (real h) (real r) W H) as (points & Hu). rewrite <- Co in Hu.
      rewrite (s_convex _ Se _ _ Hu p). rewrite left_shift. unfold moved. apply L.
Qed.
Lemma macro_read ps prims : macro_is ps prims -> mapM (fun y => from_gerber (yield_text y)) ps = Ok prims.
Proof.
  induction 1 as [|[code ms] a ps prims (vs & E & M) H IH]; [reflexivity|]. cbn [mapM]. cbn [snd fst] in *. subst ms. rewrite (means_reads code vs a M). cbn [bind]. rewrite IH. reflexivity.
Qed.
Lemma means_sound code vs a : means code vs a -> (forall on s l r, a = AOutline on s l r -> l <> [] /\ last l (0, 0)%Qc = s) /\ (forall on n p d r, a = APolygon on n p d r -> (0 < n)%Z).
Proof.
  intro M. split.
  - intros on s l r ->. inversion M; subst. auto.
  - intros on n p d r ->. inversion M; subst. lia.
Qed.
Lemma parts_shown c : forall ps prims, macro_is ps prims -> Forall drawn_part prims ->
  exists xs ds ds', mapM to_primitive prims = Ok (map (fun x => [x]) xs) /\ mapM (view_part c) xs = Ok ds /\ Forall2 (same_render fill) ds ds' /\ Forall2 (part_ok c) prims ds'.
Proof.
  induction 1 as [|y a ps prims (vs & E & M) H IH]; intro F; [exists [], [], []; repeat split; constructor|]. inversion F; subst.
  destruct (means_sound _ _ _ M) as [Ol Po]. destruct (part_shown c a) as (x & d & d' & T0 & V & R & K); [assumption|exact Ol|exact Po|].
  destruct IH as (xs & ds & ds' & T' & V' & R' & K'); [assumption|]. exists (x :: xs), (d :: ds), (d' :: ds'). cbn [mapM map]. rewrite T0, V. cbn [bind]. rewrite T', V'. cbn [bind].
  split; [reflexivity|]. split; [reflexivity|]. split; constructor; assumption.
Qed.
Lemma concat_singles {A} (l : list A) : List.concat (map (fun x => [x]) l) = l.
Proof. induction l as [|x l IH]; [reflexivity|]. cbn. now rewrite IH. Qed.
Lemma fair_exposed a : fair_part a -> exposed a = true.
Proof. now intros []. Qed.
Lemma fair_drawn l : Forall fair_part l -> Forall drawn_part l.
Proof. intro F. eapply Forall_impl; [|exact F]. now intros a []. Qed.
Lemma view_macro_parts dk c ps prims : macro_is ps prims -> Forall drawn_part prims ->
  exists ds ds', view_macro dk c ps = Ok (Group dk ds) /\ Forall2 (same_render fill) ds ds' /\ Forall2 (part_ok c) prims ds'.
Proof.
  intros M F. destruct (parts_shown c ps prims M F) as (xs & ds & ds' & T0 & V & R & K). exists ds, ds'. unfold view_macro. rewrite (macro_read ps prims M). cbn [bind]. unfold group_shapes. rewrite T0. cbn [bind].
  rewrite concat_singles, V. cbn [bind]. auto.
Qed.
Lemma macro_unique ps a b : macro_is ps a -> macro_is ps b -> a = b.
Proof. intros A B. apply macro_read in A, B. rewrite A in B. now apply ok_inj in B. Qed.
(** A macro whose parts are all exposed covers what its parts cover. *)
Lemma darkened_all {A} (l : list A) (f : A -> bool * shape) p : (forall x, In x l -> fst (f x) = true) -> darkened (map f l) p <-> exists x, In x l /\ snd (f x) p.
Proof.
  intro K. split.
  - intros (l1 & s & l2 & E & S & _). assert (J : In (true, s) (map f l)) by (rewrite E; apply in_or_app; right; now left). apply in_map_iff in J as (x & Ex & J). exists x. split; [exact J|]. now rewrite Ex.
  - intros (x & J & S). apply in_split in J as (l1 & l2 & ->). exists (map f l1), (snd (f x)), (map f l2). rewrite map_app. cbn [map]. split; [|split; [exact S|]].
    + rewrite (surjective_pairing (f x)) at 1. rewrite K; [reflexivity|apply in_or_app; right; now left].
    + intros s' J. exfalso. apply in_map_iff in J as (y & Ey & J). assert (fst (f y) = true) by (apply K; apply in_or_app; right; now right). rewrite Ey in H. discriminate.
Qed.
Lemma view_macro_ok c ps prims : macro_is ps prims -> Forall fair_part prims ->
  exists ds ds', view_macro true c ps = Ok (Group true ds) /\ Forall2 (same_render fill) ds ds' /\ Forall2 (part_ok c) prims ds' /\
    forall q, darkened (map (drawn_shape fill) ds') q <-> flashed fill c (GerberEval.ShMacro ps) q.
Proof.
  intros M F. destruct (view_macro_parts true c ps prims M (fair_drawn prims F)) as (ds & ds' & V & R & K). exists ds, ds'.
  split; [exact V|]. split; [exact R|]. split; [exact K|]. intro q. cbn [flashed].
  assert (A : (exists prims, macro_is ps prims /\ darkened (map (fun a => (exposed a, area fill c a)) prims) q) <-> exists a, In a prims /\ area fill c a q).
  { split.
    - intros (prims' & M' & X). rewrite (macro_unique _ _ _ M' M) in X. apply darkened_all in X; [exact X|]. intros a J. cbn [fst]. apply fair_exposed. rewrite Forall_forall in F. auto.
    - intro X. exists prims. split; [exact M|]. apply darkened_all; [|exact X]. intros a J. cbn [fst]. apply fair_exposed. rewrite Forall_forall in F. auto. }
  rewrite A. rewrite darkened_all.
  - clear - K. split.
    + intros (d & J & S). induction K as [|a d0 prims ds' Q K IH]; [destruct J|]. destruct J as [->|J]; [exists a; split; [now left|]; now apply Q|]. destruct (IH J) as (a' & J' & S'). exists a'. split; [now right|exact S'].
    + intros (a & J & S). induction K as [|a0 d0 prims ds' Q K IH]; [destruct J|]. destruct J as [->|J]; [exists d0; split; [now left|]; now apply Q|]. destruct (IH J) as (a' & J' & S'). exists a'. split; [now right|exact S'].
  - intros d J. unfold drawn_shape. cbn [fst]. clear - K F J. induction K as [|a d0 prims ds' Q K IH]; [destruct J|]. inversion F; subst. destruct J as [->|J]; [rewrite (proj1 Q); now apply fair_exposed|auto].
Qed.
End Parts.
