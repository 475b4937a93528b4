(** Lemmas about the image renderer. *)
From Coq Require Import Lra Lia Psatz Bool Classical.
From Verif Require Import PyBase GeomProofs CairoSpec.
From Verif Require HullProofs.
Import ListNotations.
Open Scope R_scope.
Open Scope list_scope.

Lemma scale_magnify c p : scale_point c p = magnify (scale c) p.
Proof. unfold scale_point, magnify. f_equal; ring. Qed.
Lemma at_angle_magnify s c r t : at_angle (magnify s c) (s * r) t = magnify s (at_angle c r t).
Proof. unfold at_angle, magnify. cbn. f_equal; ring. Qed.
Lemma straight_magnify s a b t : straight (magnify s a) (magnify s b) t = magnify s (straight a b t).
Proof. unfold straight, magnify. cbn. f_equal; ring. Qed.
Lemma curved_magnify s c r f w t : curved (magnify s c) (s * r) f w t = magnify s (curved c r f w t).
Proof. unfold curved. apply at_angle_magnify. Qed.
Lemma magnify_inj s p q : 0 < s -> magnify s p = magnify s q -> p = q.
Proof. destruct p, q. unfold magnify. cbn. intros S E. injection E as E1 E2. f_equal; eapply Rmult_eq_reg_l; eauto; lra. Qed.

Definition magnify_cmd (s : R) (x : cmd) : cmd :=
  match x with
  | LineTo p => LineTo (magnify s p)
  | ArcTo c r a b => ArcTo (magnify s c) (s * r) a b
  | ArcNegative c r a b => ArcNegative (magnify s c) (s * r) a b
  end.
Definition mags (s : R) (l : list curve) : list curve := map (fun (f : curve) t => magnify s (f t)) l.
Definition same (l l' : list curve) : Prop := Forall2 (fun f g => forall t, f t = g t) l l'.
Lemma same_refl l : same l l. Proof. induction l; constructor; auto. Qed.
Lemma same_trans l m n : same l m -> same m n -> same l n.
Proof. intro H. revert n. induction H; intros n M; inversion M; subst; constructor; auto. intro t. now rewrite H. apply IHForall2; auto. Qed.
Lemma same_sym l m : same l m -> same m l.
Proof. induction 1; constructor; auto. Qed.
Lemma path_magnify s l : forall p, same (fst (path (magnify s p) (map (magnify_cmd s) l))) (mags s (fst (path p l))) /\
  snd (path (magnify s p) (map (magnify_cmd s) l)) = magnify s (snd (path p l)).
Proof.
  induction l as [|x l IH]; intro p; [split; constructor|]. destruct x; cbn [map magnify_cmd path].
  - specialize (IH p0). destruct (path (magnify s p0) (map (magnify_cmd s) l)), (path p0 l). cbn in *. destruct IH as [A B]. split; [|exact B].
    constructor; auto. intro t. apply straight_magnify.
  - rewrite !at_angle_magnify. specialize (IH (at_angle c r (a1 + arc_turn a1 a2))).
    destruct (path (magnify s _) (map (magnify_cmd s) l)), (path (at_angle c r _) l). cbn in *. destruct IH as [A B]. split; [|exact B].
    constructor; [|constructor; auto]. intro t. apply straight_magnify. intro t. apply curved_magnify.
  - rewrite !at_angle_magnify. specialize (IH (at_angle c r (a1 - arc_negative_turn a1 a2))).
    destruct (path (magnify s _) (map (magnify_cmd s) l)), (path (at_angle c r _) l). cbn in *. destruct IH as [A B]. split; [|exact B].
    constructor; [|constructor; auto]. intro t. apply straight_magnify. intro t. apply curved_magnify.
Qed.
Lemma same_app l l' m m' : same l l' -> same m m' -> same (l ++ m) (l' ++ m').
Proof. apply Forall2_app. Qed.
Lemma closed_magnify s l p : same (closed (magnify s p) (map (magnify_cmd s) l)) (mags s (closed p l)).
Proof.
  unfold closed. destruct (path_magnify s l p) as [A B]. destruct (path (magnify s p) _), (path p l). cbn in *. subst. unfold mags. rewrite map_app.
  apply same_app; [exact A|]. constructor; [|constructor]. intro t. apply straight_magnify.
Qed.
Lemma traced_same l l' p : same l l' -> traced l p -> traced l' p.
Proof.
  intros H (f & t & I & T & E). unfold same in H. induction H; [easy|]. destruct I as [->|I].
  - exists y, t. split; [now left|]. split; [exact T|]. now rewrite <- H.
  - destruct (IHForall2 I) as (g & u & J & U & F). exists g, u. split; [now right|]. auto.
Qed.
Lemma disc_magnify s c r p : 0 < s -> disc (magnify s c) (s * r) (magnify s p) <-> disc c r p.
Proof.
  intro S. unfold disc, dist2, magnify. cbn [fst snd]. replace ((s * fst p - s * fst c) ^ 2 + (s * snd p - s * snd c) ^ 2) with (s ^ 2 * ((fst p - fst c) ^ 2 + (snd p - snd c) ^ 2)) by ring.
  replace ((s * r) ^ 2) with (s ^ 2 * r ^ 2) by ring. assert (0 < s ^ 2) by nra. split; intro H0; [apply Rmult_le_reg_l with (s ^ 2)|apply Rmult_le_compat_l]; lra.
Qed.
Lemma c_disc_magnify s c r p : 0 < s -> c_disc (magnify s c) (r * s) (magnify s p) <-> 0 < r /\ disc c r p.
Proof.
  intro S. unfold c_disc. rewrite (Rmult_comm r s), disc_magnify by exact S. split; intros [A B]; split; auto. apply Rmult_lt_reg_l with s; lra. now apply Rmult_lt_0_compat.
Qed.
Lemma stroke_magnify s w l p : 0 < s -> c_stroke (w * s) (mags s l) (magnify s p) <-> c_stroke w l p.
Proof.
  intro S. unfold c_stroke. split.
  - intros (W & q & v & (f & t & I & T & E) & D & P). split; [apply Rmult_lt_reg_r with s; lra|].
    apply in_map_iff in I as (g & <- & I). subst q. exists (g t), (fst v / s, snd v / s). split; [exists g, t; auto|]. split.
    + apply (disc_magnify s); [exact S|]. unfold magnify at 2. cbn [fst snd]. replace (s * (fst v / s)) with (fst v) by (field; lra). replace (s * (snd v / s)) with (snd v) by (field; lra).
      unfold magnify. cbn. replace (s * 0) with 0 by ring. destruct v. replace (s * (w / 2)) with (w * s / 2) by field. exact D.
    + apply (magnify_inj s); [exact S|]. rewrite P. unfold magnify. cbn. f_equal; field; lra.
  - intros (W & q & v & (f & t & I & T & E) & D & P). split; [now apply Rmult_lt_0_compat|].
    exists (magnify s q), (magnify s v). split; [exists (fun t => magnify s (f t)), t; split; [now apply in_map_iff; exists f|split; [exact T|now rewrite E]]|]. split.
    + replace (0, 0) with (magnify s (0, 0)) by (unfold magnify; cbn; f_equal; ring). replace (w * s / 2) with (s * (w / 2)) by field. now apply disc_magnify.
    + rewrite P. unfold magnify. cbn. f_equal; ring.
Qed.
Lemma c_stroke_same w l l' p : same l l' -> c_stroke w l p -> c_stroke w l' p.
Proof. intros H (W & q & v & A & B & C). split; [exact W|]. exists q, v. split; [now apply (traced_same l)|auto]. Qed.

(** Lines *)
Lemma line_mask c a b d p : 0 < scale c -> 0 < d ->
  c_stroke (d * scale c) (fst (path (scale_point c a) [LineTo (scale_point c b)])) (magnify (scale c) p) <-> stroke (segment a b) (disc (0, 0) (d / 2)) p.
Proof.
  intros S D. rewrite !scale_magnify. destruct (path_magnify (scale c) [LineTo b] a) as [A _]. cbn [map magnify_cmd] in A.
  assert (X : c_stroke (d * scale c) (fst (path (magnify (scale c) a) [LineTo (magnify (scale c) b)])) (magnify (scale c) p) <-> c_stroke d (fst (path a [LineTo b])) p).
  { rewrite <- (stroke_magnify (scale c) d (fst (path a [LineTo b])) p) by exact S. split; apply c_stroke_same; [exact A|now apply same_sym]. }
  rewrite X. cbn [path fst]. split.
  - intros (_ & q & v & (f & t & [<-|[]] & T & E) & V & P). exists q, v. split; [exists t; split; [exact T|exact E]|auto].
  - intros (q & v & (t & T & E) & V & P). split; [exact D|]. exists q, v. split; [exists (straight a b), t; split; [now left|split; [exact T|exact E]]|auto].
Qed.

(** Contours *)
Lemma fill_same fill l l' p : filling fill -> same l l' -> fill l p <-> fill l' p.
Proof. intros F H. now apply (same_curves fill F). Qed.
Lemma path_lines l : forall p, path p (map LineTo l) = (joined p l, last l p).
Proof.
  induction l as [|x l IH]; intro p; [reflexivity|]. cbn [map path joined]. rewrite IH. f_equal. cbn [last]. destruct l as [|y l]; [reflexivity|]. clear.
  revert y. induction l as [|z l IH]; intro y; [reflexivity|]. cbn [last]. apply IH.
Qed.
Lemma last_default {A} (l : list A) d d' : l <> [] -> last l d = last l d'.
Proof. induction l as [|x l IH]; [easy|]. intros _. destruct l; [reflexivity|]. cbn [last]. now apply IH. Qed.
Lemma last_map {A B} (f : A -> B) (l : list A) d : last (map f l) (f d) = f (last l d).
Proof. induction l as [|x l IH]; [reflexivity|]. destruct l; [reflexivity|]. exact IH. Qed.
Lemma closed_lines fill l p d : filling fill -> l <> [] -> fill (closed (last l d) (map LineTo l)) p <-> fill (sides l) p.
Proof.
  intros F N. unfold closed. rewrite path_lines. rewrite (last_default l (last l d) (0, 0) N), (last_default l d (0, 0) N). unfold sides.
  rewrite (still_curves fill F) by (intro t; unfold straight; f_equal; ring). now rewrite app_nil_r.
Qed.
Lemma closed_fill fill s x cmds p : filling fill -> 0 < s ->
  fill (closed (magnify s x) (map (magnify_cmd s) cmds)) (magnify s p) <-> fill (closed x cmds) p.
Proof. intros F S. rewrite (fill_same fill _ _ _ F (closed_magnify s cmds x)). now apply (magnified fill F). Qed.
Lemma lines_fill fill s l d p : filling fill -> 0 < s -> l <> [] ->
  fill (closed (last (map (magnify s) l) d) (map LineTo (map (magnify s) l))) (magnify s p) <-> fill (sides l) p.
Proof.
  intros F S N. rewrite (last_default _ d (magnify s (0, 0))) by (destruct l; [easy|discriminate]). rewrite last_map.
  replace (map LineTo (map (magnify s) l)) with (map (magnify_cmd s) (map LineTo l)) by (rewrite !map_map; reflexivity).
  rewrite closed_fill by assumption. now apply closed_lines.
Qed.
Lemma map_scale c l : map (scale_point c) l = map (magnify (scale c)) l.
Proof. apply map_ext. apply scale_magnify. Qed.
Lemma polygon_path_ok fill c l : filling fill -> 0 < scale c -> l <> [] ->
  exists s, polygon_path fill (map (scale_point c) l) = Ok s /\ forall p, s (magnify (scale c) p) <-> fill (sides l) p.
Proof.
  intros F S N. rewrite map_scale. destruct l as [|x l]; [easy|]. eexists. split; [reflexivity|]. intro p. apply (lines_fill fill (scale c) (x :: l)); auto.
Qed.

(** Arcs *)
Lemma pieces_of_arc a r f l : arc_is a r f l -> l < 2 * PI ->
  theta0 a <> theta1 a /\
  match a_dir a with Counterclockwise => arc_turn (theta0 a) (theta1 a) = l | Clockwise => arc_negative_turn (theta0 a) (theta1 a) = l end.
Proof.
  intros (R0 & L & Hs & He) Lt. pose proof PI_RGT_0 as PP. destruct (theta0_is a r f R0 Hs) as [k K]. destruct (theta1_is a r _ R0 He) as [k' K'].
  pose proof (theta0_range a) as T0. pose proof (theta1_range a) as T1. destruct (a_dir a); cbn [turning] in K'.
  - destruct (wrap (theta1 a) (theta0 a) l (k - k')) as [W|W]; auto; try (rewrite minus_IZR; lra).
    + split; [lra|]. unfold arc_negative_turn. destruct (Rle_dec _ _); lra.
    + split; [lra|]. unfold arc_negative_turn. destruct (Rle_dec _ _); [lra|]. apply rmod_eq with (-1)%Z; lra.
  - destruct (wrap (theta0 a) (theta1 a) l (k' - k)) as [W|W]; auto; try (rewrite minus_IZR; lra).
    + split; [lra|]. unfold arc_turn. destruct (Rle_dec _ _); lra.
    + split; [lra|]. unfold arc_turn. destruct (Rle_dec _ _); [lra|]. apply rmod_eq with (-1)%Z; lra.
Qed.
Lemma start_theta0 a r f : 0 < r -> a_start a = at_angle (a_center a) r f -> at_angle (a_center a) r (theta0 a) = a_start a.
Proof. intros R0 H. destruct (theta0_is a r f R0 H) as [k K]. rewrite H, K. now rewrite at_angle_k. Qed.
Lemma arc_mask c a d p : 0 < scale c -> 0 < d -> open_arc a ->
  c_stroke (d * scale c) (arc_path c a) (magnify (scale c) p) <-> stroke (on_arc a) (disc (0, 0) (d / 2)) p.
Proof.
  intros S D (r & f & l & A & Lt). destruct (pieces_of_arc a r f l A Lt) as [Ne Sw]. pose proof A as (R0 & L & Hs & He).
  set (cmds := [match a_dir a with Counterclockwise => ArcTo (a_center a) r (theta0 a) (theta1 a) | Clockwise => ArcNegative (a_center a) r (theta0 a) (theta1 a) end]).
  assert (E : arc_path c a = fst (path (magnify (scale c) (a_start a)) (map (magnify_cmd (scale c)) cmds))).
  { unfold arc_path, cmds. destruct (Req_EM_T _ _); [easy|]. rewrite !scale_magnify, (radius_is a r f) by (auto; lra). destruct (a_dir a); reflexivity. }
  rewrite E. clear E.
  assert (X : c_stroke (d * scale c) (fst (path (magnify (scale c) (a_start a)) (map (magnify_cmd (scale c)) cmds))) (magnify (scale c) p) <-> c_stroke d (fst (path (a_start a) cmds)) p).
  { rewrite <- (stroke_magnify (scale c) d (fst (path (a_start a) cmds)) p) by exact S. destruct (path_magnify (scale c) cmds (a_start a)) as [Q _]. split; apply c_stroke_same; [exact Q|now apply same_sym]. }
  rewrite X. clear X.
  assert (Y : forall q, traced (fst (path (a_start a) cmds)) q <-> on_arc a q).
  { destruct (theta0_is a r f R0 Hs) as [k K]. pose proof (start_theta0 a r f R0 Hs) as ST. intro q. split.
    - intros (g & t & I & T & Q).
      assert (St : on_arc a (a_start a)) by (exists r, f, l, 0; split; [exact A|split; [lra|rewrite Hs; f_equal; destruct (a_dir a); cbn; ring]]).
      unfold cmds in I. destruct (a_dir a) eqn:Ed; cbn [path fst] in I; destruct I as [<-|[<-|[]]].
      + rewrite ST in Q. replace q with (a_start a); [exact St|]. rewrite Q. unfold straight. destruct (a_start a). cbn. f_equal; ring.
      + exists r, f, l, (t * l). split; [exact A|]. split; [nra|]. rewrite Q. unfold curved. rewrite Sw, Ed. cbn [turning]. rewrite K, <- (at_angle_k _ _ _ k). f_equal. ring.
      + rewrite ST in Q. replace q with (a_start a); [exact St|]. rewrite Q. unfold straight. destruct (a_start a). cbn. f_equal; ring.
      + exists r, f, l, (t * l). split; [exact A|]. split; [nra|]. rewrite Q. unfold curved. rewrite Sw, Ed. cbn [turning]. rewrite K, <- (at_angle_k _ _ _ k). f_equal. ring.
    - intros (r' & f' & l' & t & A' & T & Q). destruct (arc_unique a r f l r' f' l' A A') as (<- & <- & m & M).
      exists (curved (a_center a) r (theta0 a) (match a_dir a with Counterclockwise => l | Clockwise => - l end)), (t / l). split.
      + unfold cmds. destruct (a_dir a); cbn [path fst]; rewrite Sw; right; now left.
      + split. { split; [apply Rmult_le_reg_r with l|apply Rmult_le_reg_r with l]; try lra; unfold Rdiv; rewrite Rmult_assoc, Rinv_l; lra. }
        rewrite Q. unfold curved. assert (EQ : f' = theta0 a + 2 * IZR (k - m) * PI) by (rewrite minus_IZR; lra). rewrite EQ.
        destruct (a_dir a); cbn [turning]; rewrite <- (at_angle_k _ _ (theta0 a + _) (k - m)); f_equal; field; lra. }
  unfold c_stroke, stroke. split.
  - intros (_ & q & v & Q & V & P). exists q, v. rewrite <- Y. auto.
  - intros (q & v & Q & V & P). split; [exact D|]. exists q, v. rewrite Y. auto.
Qed.

(** Regions *)
Lemma turn_by t0 t1 l k : - (2 * PI) < t1 - t0 < 2 * PI -> 0 < l < 2 * PI -> t0 + l = t1 + 2 * IZR k * PI -> arc_turn t0 t1 = l.
Proof.
  intros D L E. pose proof PI_RGT_0 as PP. unfold arc_turn. destruct (Rle_dec _ _).
  - assert (A : (-1 < k)%Z) by (apply lt_IZR; nra). assert (B : (k < 1)%Z) by (apply lt_IZR; nra). assert (k = 0)%Z as -> by lia. lra.
  - apply rmod_eq with (- k)%Z; [lra|lra|]. rewrite opp_IZR. lra.
Qed.
Lemma turn_back t0 t1 l k : - (2 * PI) < t1 - t0 < 2 * PI -> 0 < l < 2 * PI -> t0 - l = t1 + 2 * IZR k * PI -> arc_negative_turn t0 t1 = l.
Proof.
  intros D L E. pose proof PI_RGT_0 as PP. unfold arc_negative_turn. destruct (Rle_dec _ _).
  - assert (A : (-1 < k)%Z) by (apply lt_IZR; nra). assert (B : (k < 1)%Z) by (apply lt_IZR; nra). assert (k = 0)%Z as -> by lia. lra.
  - apply rmod_eq with k%Z; [lra|lra|]. lra.
Qed.
Lemma angle_of (p c : pt) r f : 0 < r -> p = at_angle c r f -> exists k, f = atan2 (snd p - snd c) (fst p - fst c) + 2 * IZR k * PI.
Proof.
  intros R0 H. destruct (atan2_polar (snd p - snd c) (fst p - fst c)) as [A B].
  assert (E : sqrt ((fst p - fst c) ^ 2 + (snd p - snd c) ^ 2) = r).
  { subst p. cbn. replace ((fst c + r * cos f - fst c) * ((fst c + r * cos f - fst c) * 1) + (snd c + r * sin f - snd c) * ((snd c + r * sin f - snd c) * 1)) with (r ^ 2 * (sin f * sin f + cos f * cos f)) by ring.
    rewrite sc2, Rmult_1_r. replace (r ^ 2) with (r * r) by ring. apply sqrt_square. lra. }
  rewrite E in A, B. apply (at_angle_inj c r); [exact R0|]. rewrite <- H. destruct p. unfold at_angle. cbn in *. f_equal; lra.
Qed.
Definition cmd_of (s : seg) : cmd :=
  match s with
  | SLine _ b => LineTo b
  | SArc a => match a_dir a with Counterclockwise => ArcTo (a_center a) (radius a) (start_angle a) (end_angle a)
              | Clockwise => ArcNegative (a_center a) (radius a) (start_angle a) (end_angle a) end
  end.
Lemma seg_cmd_magnify c s : seg_cmd c s = magnify_cmd (scale c) (cmd_of s).
Proof. destruct s as [a b|a]; cbn; [now rewrite scale_magnify|]. destruct (a_dir a); cbn; now rewrite scale_magnify. Qed.
Lemma region_path fill segs : filling fill -> forall cur to cs, connected cur segs to -> Forall open_seg segs -> Forall2 seg_is segs cs ->
  snd (path cur (map cmd_of segs)) = to /\ forall l1 l2 p, fill (l1 ++ fst (path cur (map cmd_of segs)) ++ l2) p <-> fill (l1 ++ cs ++ l2) p.
Proof.
  intro F. induction segs as [|s segs IH]; intros cur to cs Co Op Fo.
  - inversion Fo; subst. cbn in *. subst. now split.
  - inversion Fo as [|x y xs ys Sx Sr E1 E2]; subst. inversion Op as [|? ? O1 O2]; subst. destruct s as [a b|a]; cbn [connected] in Co; destruct Co as [<- Co].
    + cbn [map cmd_of path]. destruct (IH _ _ _ Co O2 Sr) as [A B]. destruct (path b (map cmd_of segs)) as [qs e]. cbn in *. split; [exact A|]. intros l1 l2 p. subst y.
      specialize (B (l1 ++ [straight a b]) l2 p). rewrite <- !app_assoc in B. exact B.
    + destruct Sx as (r & f & l & Ar & ->). destruct O1 as (r' & f' & l' & Ar' & Lt). destruct (arc_unique a r f l r' f' l' Ar Ar') as (<- & <- & _). clear f' Ar'.
      pose proof Ar as (R0 & L & Hs & He). destruct (angle_of _ _ _ _ R0 Hs) as [k K]. destruct (angle_of _ _ _ _ R0 He) as [k' K'].
      fold (start_angle a) in K. fold (end_angle a) in K'. pose proof PI_RGT_0 as PP.
      pose proof (HullProofs.atan2_range (snd (a_start a) - snd (a_center a)) (fst (a_start a) - fst (a_center a))) as Ra. fold (start_angle a) in Ra.
      pose proof (HullProofs.atan2_range (snd (a_end a) - snd (a_center a)) (fst (a_end a) - fst (a_center a))) as Rb. fold (end_angle a) in Rb.
      assert (St : at_angle (a_center a) r (start_angle a) = a_start a) by (rewrite Hs, K; now rewrite at_angle_k).
      cbn [map cmd_of]. rewrite (radius_is a r f) by (auto; lra). destruct (a_dir a) eqn:Ed; cbn [turning] in *; cbn [path].
      * rewrite (turn_back _ _ l (k' - k)) by (try (rewrite minus_IZR); lra).
        assert (En : at_angle (a_center a) r (start_angle a - l) = a_end a). { rewrite He, K. replace (start_angle a + 2 * IZR k * PI - l) with (start_angle a - l + 2 * IZR k * PI) by ring. now rewrite at_angle_k. }
        rewrite En, St. destruct (IH _ _ _ Co O2 Sr) as [A B]. destruct (path (a_end a) (map cmd_of segs)) as [qs e]. cbn in *. split; [exact A|]. intros l1 l2 p.
        rewrite (still_curves fill F l1) by (intro t; unfold straight; f_equal; ring).
        specialize (B (l1 ++ [curved (a_center a) r (start_angle a) (- l)]) l2 p). rewrite <- !app_assoc in B. cbn [app] in B. rewrite B. apply (fill_same fill _ _ _ F).
        apply same_app; [apply same_refl|]. constructor; [|apply same_refl]. intro t. unfold curved. rewrite K. replace (start_angle a + 2 * IZR k * PI + t * - l) with (start_angle a + t * - l + 2 * IZR k * PI) by ring. now rewrite at_angle_k.
      * rewrite (turn_by _ _ l (k' - k)) by (try (rewrite minus_IZR); lra).
        assert (En : at_angle (a_center a) r (start_angle a + l) = a_end a). { rewrite He, K. replace (start_angle a + 2 * IZR k * PI + l) with (start_angle a + l + 2 * IZR k * PI) by ring. now rewrite at_angle_k. }
        rewrite En, St. destruct (IH _ _ _ Co O2 Sr) as [A B]. destruct (path (a_end a) (map cmd_of segs)) as [qs e]. cbn in *. split; [exact A|]. intros l1 l2 p.
        rewrite (still_curves fill F l1) by (intro t; unfold straight; f_equal; ring).
        specialize (B (l1 ++ [curved (a_center a) r (start_angle a) l]) l2 p). rewrite <- !app_assoc in B. cbn [app] in B. rewrite B. apply (fill_same fill _ _ _ F).
        apply same_app; [apply same_refl|]. constructor; [|apply same_refl]. intro t. unfold curved. rewrite K. replace (start_angle a + 2 * IZR k * PI + t * l) with (start_angle a + t * l + 2 * IZR k * PI) by ring. now rewrite at_angle_k.
Qed.
Lemma some_curves segs : Forall open_seg segs -> exists cs, Forall2 seg_is segs cs.
Proof.
  induction 1 as [|s l O _ [cs IH]]; [exists []; constructor|]. destruct s as [a b|a].
  - exists (straight a b :: cs). now constructor.
  - destruct O as (r & f & n & A & _). eexists (_ :: cs). constructor; [|exact IH]. exists r, f, n. split; [exact A|reflexivity].
Qed.
Lemma region_mask fill c s segs p : filling fill -> 0 < scale c -> connected (seg_start s) segs (seg_start s) -> Forall open_seg segs ->
  fill (closed (scale_point c (seg_start s)) (map (seg_cmd c) segs)) (magnify (scale c) p) <-> exists cs, Forall2 seg_is segs cs /\ fill cs p.
Proof.
  intros F S Co Op. rewrite scale_magnify. rewrite (map_ext _ _ (seg_cmd_magnify c)). rewrite <- (map_map cmd_of (magnify_cmd (scale c))). rewrite closed_fill by assumption.
  assert (H : forall cs, Forall2 seg_is segs cs -> fill (closed (seg_start s) (map cmd_of segs)) p <-> fill cs p).
  { intros cs Fo. destruct (region_path fill segs F _ _ cs Co Op Fo) as [A B]. unfold closed. destruct (path (seg_start s) (map cmd_of segs)) as [qs e]. cbn in *. subst e.
    specialize (B [] [straight (seg_start s) (seg_start s)] p). cbn [app] in B. rewrite B. rewrite (still_curves fill F) by (intro t; unfold straight; f_equal; ring). now rewrite app_nil_r. }
  split.
  - intro Q. destruct (some_curves segs Op) as [cs Fo]. exists cs. split; [exact Fo|]. now apply H.
  - intros (cs & Fo & Q). now apply (H cs).
Qed.

(** Rectangles *)
Lemma c_rectangle_magnify s p w h q : 0 < s -> 0 <= w -> 0 <= h ->
  c_rectangle (magnify s p) (Rabs (w * s)) (Rabs (h * s)) (magnify s q) <-> fst p <= fst q <= fst p + w /\ snd p <= snd q <= snd p + h.
Proof.
  intros S W H. unfold c_rectangle, magnify. cbn [fst snd]. rewrite !Rabs_right by nra.
  assert (E : forall a b, s * a <= s * b <-> a <= b) by (intros a b; split; intro X; [apply Rmult_le_reg_l with s|apply Rmult_le_compat_l]; lra).
  replace (s * fst p + w * s) with (s * (fst p + w)) by ring. replace (s * snd p + h * s) with (s * (snd p + h)) by ring. now rewrite !E.
Qed.
Lemma turned_zero c s p : turned c 0 s p <-> s (fst p - fst c, snd p - snd c).
Proof.
  unfold turned. replace (0 * PI / 180) with 0 by field. rewrite cos_0, sin_0. split.
  - intros (q & Q & ->). cbn [fst snd]. replace (_, _) with q; [exact Q|]. destruct q. cbn. f_equal; ring.
  - intro Q. exists (fst p - fst c, snd p - snd c). split; [exact Q|]. destruct p. cbn. f_equal; ring.
Qed.
Lemma rectangle_mask c p w h q : 0 < scale c -> 0 <= w -> 0 <= h -> rectangle_path c p w h 0 (magnify (scale c) q) <-> turned p 0 (oblong w h) q.
Proof.
  intros S W H. unfold rectangle_path. rewrite scale_magnify, c_rectangle_magnify by assumption. rewrite turned_zero. unfold oblong, lower_left, radians.
  replace (0 * (PI / 180)) with 0 by ring. rewrite cos_0, sin_0. cbn [fst snd]. split; intros [A B]; split; lra.
Qed.
(** An oblong with a disc at each end *)
Lemma oblong_discs w h p : 0 < w -> w < h ->
  disc (0, (h - w) / 2) (w / 2) p \/ disc (0, - ((h - w) / 2)) (w / 2) p \/ oblong w (h - w) p <->
  stroke (segment (0, (w - h) / 2) (0, (h - w) / 2)) (disc (0, 0) (w / 2)) p.
Proof.
  intros W H. destruct p as [x y]. unfold stroke, segment, disc, dist2, oblong. cbn [fst snd]. split.
  - intros [D|[D|[X Y]]].
    + exists (0, (h - w) / 2), (x, y - (h - w) / 2). split; [exists 1; split; [lra|f_equal; field]|]. cbn. split; [nra|f_equal; ring].
    + exists (0, (w - h) / 2), (x, y + (h - w) / 2). split; [exists 0; split; [lra|f_equal; field]|]. cbn. split; [nra|f_equal; field].
    + exists (0, y), (x, 0). split; [exists ((y + (h - w) / 2) / (h - w)); split|].
      * split; [apply Rmult_le_reg_r with (h - w)|apply Rmult_le_reg_r with (h - w)]; try lra; unfold Rdiv; rewrite ?Rmult_assoc, ?Rinv_l by lra; lra.
      * f_equal; field; lra.
      * cbn. split; [nra|f_equal; ring].
  - intros ([qx qy] & [vx vy] & (t & T & E) & D & P). injection E as E1 E2. injection P as P1 P2. cbn in *. subst x.
    assert (Q : - ((h - w) / 2) <= qy <= (h - w) / 2) by nra.
    destruct (Rle_dec ((h - w) / 2) y) as [A|A]; [left; assert (0 <= y - (h - w) / 2 <= vy) by lra; nra|].
    destruct (Rle_dec y (- ((h - w) / 2))) as [B|B]; [right; left; assert (0 <= - (h - w) / 2 - y <= - vy) by lra; nra|].
    right. right. assert (X : vx ^ 2 <= (w / 2) ^ 2) by nra. apply sq_le_abs in X; [|lra]. split; lra.
Qed.
Lemma swap_disc c r p : disc (snd c, fst c) r (snd p, fst p) <-> disc c r p.
Proof. unfold disc, dist2. cbn. split; intro; lra. Qed.
Lemma swap_stroke a b r p : stroke (segment (snd a, fst a) (snd b, fst b)) (disc (0, 0) r) (snd p, fst p) <-> stroke (segment a b) (disc (0, 0) r) p.
Proof.
  split.
  - intros (q & v & (t & T & E) & D & P). injection P as P1 P2. exists (snd q, fst q), (snd v, fst v). split; [exists t; split; [exact T|subst q; reflexivity]|]. split.
    + unfold disc, dist2 in *. cbn in *. lra.
    + destruct p. cbn in *. congruence.
  - intros (q & v & (t & T & E) & D & P). exists (snd q, fst q), (snd v, fst v). split; [exists t; split; [exact T|subst q; reflexivity]|]. split.
    + unfold disc, dist2 in *. cbn in *. lra.
    + subst p. reflexivity.
Qed.
Lemma capsule_parts w h p : 0 < w -> 0 < h ->
  (let '(c1, c2, (m, (rw, rh))) := subshapes (0, 0) w h in
   disc (fst c1) (snd c1 / 2) p \/ disc (fst c2) (snd c2 / 2) p \/ oblong rw rh (fst p - fst m, snd p - snd m)) <-> capsule w h p.
Proof.
  intros W H. unfold subshapes, capsule. destruct (Rlt_dec w h) as [Lt|Ge]; cbn [fst snd].
  - rewrite <- (oblong_discs w h p W Lt). replace (0 + (h - w) / 2) with ((h - w) / 2) by ring. replace (0 - (h - w) / 2) with (- ((h - w) / 2)) by ring.
    replace (fst p - 0, snd p - 0) with p; [reflexivity|]. destruct p. cbn. f_equal; ring.
  - replace (fst p - 0, snd p - 0) with p by (destruct p; cbn; f_equal; ring). destruct (Rlt_dec h w) as [Lt|Ge'].
    + pose proof (oblong_discs h w (snd p, fst p) H Lt) as X. pose proof (swap_stroke ((h - w) / 2, 0) ((w - h) / 2, 0) (h / 2) p) as Y. cbn [fst snd] in Y. rewrite <- Y, <- X. clear X Y.
      pose proof (swap_disc ((w - h) / 2, 0) (h / 2) p) as X1. pose proof (swap_disc (- ((w - h) / 2), 0) (h / 2) p) as X2. cbn [fst snd] in X1, X2. rewrite X1, X2.
      replace (0 - (h - w) / 2) with ((w - h) / 2) by field. replace (0 + (h - w) / 2) with (- ((w - h) / 2)) by field. unfold oblong. cbn [fst snd]. tauto.
    + assert (h = w) by lra. subst. replace ((w - w) / 2) with 0 by field. replace (0 - 0) with 0 by ring. replace (0 + 0) with 0 by ring. replace (w - w) with 0 by ring. split.
      * intros D. assert (disc (0, 0) (w / 2) p) as D'. { destruct D as [D|[D|[X Y]]]; auto. unfold disc, dist2. cbn [fst snd]. assert (fst p = 0) by lra. rewrite H0. nra. }
        exists (0, 0), p. split; [exists 0; split; [lra|cbn; f_equal; ring]|]. split; [exact D'|]. destruct p. cbn. f_equal; ring.
      * intros (q & v & (t & T & E) & D & P). left. replace p with v; [exact D|]. subst. destruct v. cbn. f_equal; ring.
Qed.
Lemma subshapes_at c w h : subshapes c w h = let '(c1, c2, (m, r)) := subshapes (0, 0) w h in
  ((fst c + fst (fst c1), snd c + snd (fst c1), snd c1), (fst c + fst (fst c2), snd c + snd (fst c2), snd c2), ((fst c + fst m, snd c + snd m), r)).
Proof. unfold subshapes. destruct c. destruct (Rlt_dec w h); cbn [fst snd]; repeat (f_equal; try ring). Qed.
Lemma disc_at c d r p : disc (fst c + fst d, snd c + snd d) r p <-> disc d r (fst p - fst c, snd p - snd c).
Proof. unfold disc, dist2. cbn [fst snd]. replace (fst p - (fst c + fst d)) with (fst p - fst c - fst d) by ring. replace (snd p - (snd c + snd d)) with (snd p - snd c - snd d) by ring. tauto. Qed.

(** Holes *)
Lemma drawing_app l m : drawing (l ++ m) = fold_left (fun s x => draw (fst x) (snd x) s) m (drawing l).
Proof. unfold drawing. apply fold_left_app. Qed.
Lemma hole_points_turn c q w h rot : hole_points c (scale_point c q) w h rot =
  map (magnify (scale c)) [turn q rot (- (w / 2)) (- (h / 2)); turn q rot (w / 2) (- (h / 2)); turn q rot (w / 2) (h / 2); turn q rot (- (w / 2)) (h / 2)].
Proof.
  unfold hole_points, turn, GeomModel.rotate_point, magnify, scale_point. cbn [map fst snd]. replace (radians rot) with (rot * PI / 180) by (unfold radians; field).
  assert (C : forall (a a' : R * R) (l l' : list pt), a = a' -> l = l' -> a :: l = a' :: l') by congruence.
  repeat (apply C; [apply pt_eq; field|]). reflexivity.
Qed.
Lemma holes_mask fill c q rot hd hw hh o1 o2 l (body : shape) : filling fill -> 0 < scale c ->
  (o1 = Clear \/ hd <= 0) -> (o2 = Clear \/ hw <= 0 \/ hh <= 0) ->
  (forall p, drawing l (magnify (scale c) p) <-> body p) ->
  forall p, drawing (l ++ holes fill c q rot hd hw hh o1 o2) (magnify (scale c) p) <-> with_holes fill q rot hd hw hh body p.
Proof.
  intros F S O1 O2 B p. unfold holes, with_holes, without. rewrite app_assoc, drawing_app.
  set (l1 := l ++ (if Rlt_dec 0 hd then [(o1, c_disc (scale_point c q) (hd / 2 * scale c))] else [])).
  assert (B1 : drawing l1 (magnify (scale c) p) <-> body p /\ ~ round_hole q hd p).
  { unfold l1, round_hole. destruct (Rlt_dec 0 hd) as [D|D].
    - destruct O1 as [->|O1]; [|lra]. rewrite drawing_app. cbn [fold_left fst snd draw]. rewrite B, scale_magnify, c_disc_magnify by exact S. split; intros [X Y]; split; auto; intros [Z Z2]; apply Y; split; auto; lra.
    - rewrite app_nil_r, B. split; [intro X; split; [exact X|]|]; tauto. }
  unfold rect_hole. destruct (Rlt_dec 0 hw) as [W|W]; [destruct (Rlt_dec 0 hh) as [H|H]|]; cbn [fold_left fst snd draw].
  - destruct O2 as [->|O2]; [|lra]. cbn [draw]. rewrite B1, hole_points_turn. rewrite lines_fill by (auto; discriminate). tauto.
  - rewrite B1. tauto.
  - rewrite B1. tauto.
Qed.

Definition clear_holes (inv dark : bool) (p : prim) : Prop :=
  match p with
  | PCircle _ _ _ _ hw hh => dark = true /\ inv = false \/ hw <= 0 \/ hh <= 0
  | PObround _ _ _ _ _ hw hh => inv = false \/ hw <= 0 \/ hh <= 0
  | PRect _ _ _ _ hd hw hh | PPolygon _ _ _ hd hw hh => dark = true /\ inv = false \/ no_holes hd hw hh
  | _ => True
  end.
Lemma hole_op c d : hole_operator c d = Clear <-> d = true /\ invert c = false.
Proof. unfold hole_operator. destruct d, (invert c); cbn; split; intro; try easy; try (now destruct H). Qed.
Lemma one_over s p : drawing [(Over, s)] p <-> s p.
Proof. unfold drawing. cbn. tauto. Qed.
Lemma mask_ok fill c dark p : filling fill -> 0 < scale c -> simple p -> clear_holes (invert c) dark p ->
  exists l, mask fill c dark p = Ok l /\ forall v, drawing l (magnify (scale c) v) <-> prim_shape fill p v.
Proof.
  intros F S Si H. destruct p; cbn [mask prim_shape simple clear_holes] in *.
  - eexists. split; [reflexivity|]. intro v. rewrite one_over. now apply line_mask.
  - destruct (polygon_path_ok fill c vertices F S Si) as (s & -> & E). cbn [bind]. eexists. split; [reflexivity|]. intro v. now rewrite one_over.
  - destruct Si as [D O]. eexists. split; [reflexivity|]. intro v. rewrite one_over. destruct (Req_EM_T diameter 0); [lra|]. now apply arc_mask.
  - destruct Si as (s & l & -> & Co & Op). eexists. split; [reflexivity|]. intro v. rewrite one_over. now apply region_mask.
  - eexists. split; [reflexivity|]. refine (holes_mask fill c position rotation hole hole_w hole_h _ _ [_] _ F S _ _ _).
    + now left.
    + destruct H as [H|H]; [left; now apply hole_op|now right].
    + intro p. rewrite one_over, scale_magnify, c_disc_magnify by exact S. split; [tauto|]. intro D. split; [lra|exact D].
  - destruct Si as (W & Hh & ->). eexists. split; [reflexivity|]. refine (holes_mask fill c position 0 hole hole_w hole_h _ _ [_] _ F S _ _ _).
    + destruct H as [H|[H _]]; [left; now apply hole_op|now right].
    + destruct H as [H|[_ H]]; [left; now apply hole_op|now right].
    + intro p. rewrite one_over. apply rectangle_mask; lra.
  - destruct Si as (W & Hh & ->). rewrite subshapes_at. pose proof (fun p => capsule_parts w h p W Hh) as CP.
    assert (Pos : let '(c1, c2, (m, (rw, rh))) := subshapes (0, 0) w h in 0 < snd c1 /\ 0 < snd c2 /\ 0 <= rw /\ 0 <= rh).
    { unfold subshapes. destruct (Rlt_dec w h); cbn; lra. }
    destruct (subshapes (0, 0) w h) as [[c1 c2] [m [rw rh]]]. cbn [fst snd]. destruct Pos as (P1 & P2 & P3 & P4). eexists. split; [reflexivity|].
    refine (holes_mask fill c position 0 hole hole_w hole_h _ _ [_; _; _] _ F S _ _ _).
    + now left.
    + destruct H as [H|H]; [left; now apply hole_op|now right].
    + intro p. unfold drawing. cbn [fold_left fst snd draw]. rewrite !scale_magnify, !c_disc_magnify by exact S. rewrite rectangle_mask by assumption.
      rewrite !turned_zero, !disc_at. cbn [fst snd]. rewrite <- CP. cbn [fst snd].
      replace (fst p - (fst position + fst m)) with (fst p - fst position - fst m) by ring. replace (snd p - (snd position + snd m)) with (snd p - snd position - snd m) by ring.
      split; [tauto|]. intros [D|[D|D]]; [left; left; right; split; [lra|exact D]|left; right; split; [lra|exact D]|now right].
  - destruct (polygon_path_ok fill c vertices F S Si) as (s & -> & E). cbn [bind]. eexists. split; [reflexivity|]. refine (holes_mask fill c position rotation hole hole_w hole_h _ _ [_] _ F S _ _ _).
    + destruct H as [H|[H _]]; [left; now apply hole_op|now right].
    + destruct H as [H|[_ H]]; [left; now apply hole_op|now right].
    + intro p. now rewrite one_over.
  - eexists. split; [reflexivity|]. intro v. rewrite one_over. now apply line_mask.
Qed.

(** ** The clip *)
Lemma floor_bounds x : floor x <= x < floor x + 1.
Proof. unfold floor. destruct (base_Int_part x). lra. Qed.
Lemma ceil_bounds x : ceil x - 1 < x <= ceil x.
Proof. unfold ceil. pose proof (floor_bounds (- x)). lra. Qed.
Lemma floor_mono x y : x <= y -> floor x <= floor y.
Proof.
  intro H. destruct (Rle_dec (floor x) (floor y)) as [|N]; [assumption|]. exfalso. pose proof (floor_bounds x). pose proof (floor_bounds y). unfold floor in *.
  assert (Int_part y < Int_part x)%Z by (apply lt_IZR; lra). assert (Int_part y + 1 <= Int_part x)%Z by lia. apply IZR_le in H3. rewrite plus_IZR in H3. lra.
Qed.
Lemma clip_covers c b v : 0 < scale c -> inside b v -> scale c * snd v <= scale c * snd (snd b) - 1 ->
  clip c b (scale c * fst v, scale c * snd v - snd (origin_px c)).
Proof.
  intros S [[A B] [C D]] T. unfold clip, c_rectangle. cbn [fst snd]. set (oy := snd (origin_px c)). set (s := scale c) in *.
  assert (A' : s * fst (fst b) <= s * fst v) by (apply Rmult_le_compat_l; lra). assert (B' : s * fst v <= s * snd (fst b)) by (apply Rmult_le_compat_l; lra).
  assert (C' : s * fst (snd b) <= s * snd v) by (apply Rmult_le_compat_l; lra).
  pose proof (floor_bounds (s * fst (fst b))). pose proof (ceil_bounds (s * snd (fst b))). pose proof (floor_bounds (s * fst (snd b) - ceil oy)). pose proof (floor_bounds (s * snd (snd b) - floor oy)).
  pose proof (floor_bounds oy). pose proof (ceil_bounds oy). rewrite !Rabs_right by lra. lra.
Qed.
(** ** One primitive *)
Lemma on_surface_at s b mir p : 0 < s -> inside b p -> on_surface (set_bounds s b false mir) (pixel s b mir p).
Proof.
  intros S [[A B] [C D]]. unfold on_surface, size_px, scale_point, set_bounds, pixel. cbn [fst snd size scale]. rewrite !Rabs_right by lra.
  destruct mir; repeat split; nra.
Qed.
Lemma masked_at c b bb content p : 0 < scale c -> inside b p ->
  origin c = (fst (fst b), fst (snd b)) -> size c = (snd (fst b) - fst (fst b), snd (snd b) - fst (snd b)) ->
  masked c bb content (pixel (scale c) b (mirror c) p) <->
  content (magnify (scale c) p) /\ clip c bb (scale c * fst p, scale c * snd p - snd (origin_px c)).
Proof.
  intros S [[A B] [C D]] Eo Es. unfold masked, on_surface, matrix, pixel, size_px, origin_px, scale_point. rewrite Eo, Es. cbn [fst snd]. set (s := scale c) in *. split.
  - intros (_ & v & V & _ & Cl & M). injection M as M1 M2. assert (E : v = magnify s p).
    { destruct v as [x y]. cbn in *. unfold magnify. f_equal; [destruct (mirror c)|]; nra. }
    subst v. split; [exact V|]. cbn [fst snd magnify] in Cl. replace (s * fst p - fst (fst b) * s + fst (fst b) * s) with (s * fst p) in Cl by ring. exact Cl.
  - intros [V Cl]. split; [destruct (mirror c); repeat split; nra|]. exists (magnify s p). cbn [fst snd magnify]. split; [exact V|]. split; [repeat split; nra|].
    replace (s * fst p - fst (fst b) * s + fst (fst b) * s) with (s * fst p) by ring. split; [exact Cl|]. f_equal; [destruct (mirror c)|]; ring.
Qed.
