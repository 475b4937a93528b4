(** Lemmas about themes and the images of boards. *)
From Verif Require Import PyBase QcLib ThemeModel ThemeSpec.
Open Scope list_scope.
Open Scope Qc_scope.

(** ** Settings *)
Lemma lookup_in {A} key (l : list (string * A)) v : lookup key l = Some v -> In (key, v) l.
Proof. induction l as [|[k w] l IH]; cbn; [discriminate|]. destruct (String.eqb_spec k key) as [->|N]; [intros E; injection E as ->; now left|auto]. Qed.
Lemma lookup_none {A} key (l : list (string * A)) : lookup key l = None -> ~ In key (map fst l).
Proof. induction l as [|[k w] l IH]; cbn; [auto|]. destruct (String.eqb_spec k key) as [->|N]; [discriminate|]. intros E [H|H]; [auto|now apply IH]. Qed.
Lemma kwargs_lookup key l : kwargs_get key l = lookup key l.
Proof. induction l as [|[k w] l IH]; cbn; [reflexivity|]. now rewrite IH. Qed.
Lemma plain_class th used c : is_internal c = false ->
  exists s, theme_get th used c = Ok (used, s) /\ of_class th c s.
Proof.
  unfold is_internal, theme_get. intros ->. eexists. split; [reflexivity|]. unfold attribute. destruct (lookup c defaults) as [d|] eqn:D.
  - assert (I : In c (map fst defaults)) by (apply in_map_iff; exists (c, d); split; [reflexivity|now apply lookup_in]).
    rewrite kwargs_lookup. destruct (lookup c (given th)) as [[s|]|] eqn:G.
    + apply class_given; [exact I|now apply lookup_in].
    + apply class_none. now apply lookup_in.
    + apply class_default; [now apply lookup_none|now apply lookup_in].
  - apply class_other. now apply lookup_none.
Qed.
Lemma nodup_defaults : NoDup (map fst defaults).
Proof. cbn. repeat (constructor; [cbn; intuition discriminate|]). constructor. Qed.
Lemma in_fst {A} (l : list (string * A)) k v : In (k, v) l -> In k (map fst l).
Proof. intros H. apply in_map_iff. exists (k, v). auto. Qed.
Lemma nodup_same {A} (l : list (string * A)) k v w : NoDup (map fst l) -> In (k, v) l -> In (k, w) l -> v = w.
Proof.
  induction l as [|[k' x] l IH]; [contradiction|]. cbn [map fst]. intros N [E1|H1] [E2|H2]; apply NoDup_cons_iff in N as [N1 N2].
  - congruence.
  - injection E1 as -> ->. apply in_fst in H2. contradiction.
  - injection E2 as -> ->. apply in_fst in H1. contradiction.
  - auto.
Qed.
(** With every keyword given once the settings are determined. *)
Lemma of_class_unique th c s s' : NoDup (map fst (given th)) -> of_class th c s -> of_class th c s' -> s = s'.
Proof.
  intros N A B. destruct A as [s I G|s G D|G|G], B as [s' I' G'|s' G' D'|G'|G']; try reflexivity; try (pose proof (nodup_same _ _ _ _ N G G'); congruence);
    try (exact (nodup_same _ _ _ _ nodup_defaults D D')); try (apply in_fst in G); try (apply in_fst in G'); try (apply in_fst in D); try (apply in_fst in D'); contradiction.
Qed.

(** ** Colours *)
Lemma through_app a b : through (a ++ b) = through a * through b.
Proof. induction a as [|o a IH]; cbn [app through]; [ring|]. rewrite IH. ring. Qed.
Lemma mix_snoc l c o : mix (l ++ [(c, o)]) = c * o + mix l * (1 - o).
Proof.
  induction l as [|[c' o'] l IH]; cbn [app mix map through]; [ring|]. rewrite IH, map_app, through_app. cbn [map through snd]. ring.
Qed.
Lemma mixed_nil : mixed [] empty_pixel.
Proof. unfold mixed. cbn. repeat split; try ring. Qed.
Lemma mixed_over l c o p : mixed l p -> mixed (l ++ [(c, o)]) (over c o p).
Proof.
  destruct p as [[[r g] b] a], c as [[cr cg] cb]. unfold mixed, red, green, blue. cbn [fst snd over]. intros (-> & -> & -> & ->).
  rewrite !map_app. cbn [map fst snd]. rewrite !mix_snoc, through_app. cbn [through]. repeat split; ring.
Qed.

Section Stack.
Variable P layer : Type.
Variable class_of : layer -> string.
Variable drawing : settings -> layer -> res (P -> Qc).
(** The settings of the layers, one after the other. *)
Fixpoint assign (th : theme) (used : nat) (ls : list layer) : res (nat * list settings) :=
  match ls with
  | [] => Ok (used, [])
  | l :: ls => do r <- theme_get th used (class_of l); do q <- assign th (fst r) ls; Ok (fst q, snd r :: snd q)
  end.
Local Notation count := (ThemeSpec.count layer class_of).
Lemma assign_ok th ls : forall used, (used + count ls <= List.length (internals th))%nat ->
  exists ss, assign th used ls = Ok ((used + count ls)%nat, ss) /\ List.length ss = List.length ls /\
    forall i s, nth_error ss i = Some s -> chosen th used (map class_of ls) i s.
Proof.
  induction ls as [|l ls IH]; intros used H.
  { exists []. cbn. rewrite Nat.add_0_r. split; [reflexivity|]. split; [reflexivity|]. intros [|i] s E; discriminate. }
  cbn [assign]. unfold ThemeSpec.count in *. cbn [filter] in *. destruct (is_internal (class_of l)) eqn:I; cbn [List.length] in *.
  - unfold theme_get. unfold is_internal in I. rewrite I. destruct (nth_error (internals th) used) as [s|] eqn:N.
    2:{ apply nth_error_None in N. lia. }
    cbn [bind fst snd]. destruct (IH (S used)) as (ss & E & L & C); [lia|]. rewrite E. cbn [bind fst snd].
    exists (s :: ss). split; [f_equal; f_equal; lia|]. split; [cbn; lia|]. intros [|i] s' E'; cbn [nth_error] in E'.
    + injection E' as <-. exists (class_of l). split; [reflexivity|]. unfold is_internal at 1. rewrite I. cbn. now rewrite Nat.add_0_r.
    + destruct (C i s' E') as (c & E1 & E2). exists c. split; [exact E1|]. destruct (is_internal c); [|exact E2].
      unfold internal_before in *. cbn [map firstn filter]. unfold is_internal at 1. rewrite I. cbn [List.length]. rewrite <- E2. f_equal. lia.
  - destruct (plain_class th used _ I) as (s & E0 & K). rewrite E0. cbn [bind fst snd]. destruct (IH used) as (ss & E & L & C); [lia|]. rewrite E. cbn [bind fst snd].
    exists (s :: ss). split; [reflexivity|]. split; [cbn; lia|]. intros [|i] s' E'; cbn [nth_error] in E'.
    + injection E' as <-. exists (class_of l). split; [reflexivity|]. now rewrite I.
    + destruct (C i s' E') as (c & E1 & E2). exists c. split; [exact E1|]. destruct (is_internal c); [|exact E2].
      unfold internal_before in *. cbn [map firstn filter]. rewrite I. exact E2.
Qed.
Lemma assign_fail th ls : forall used, (used + count ls > List.length (internals th))%nat -> (used <= List.length (internals th))%nat -> assign th used ls = Err StopIteration.
Proof.
  induction ls as [|l ls IH]; intros used H U.
  { cbn in H. lia. }
  cbn [assign]. unfold ThemeSpec.count in *. cbn [filter] in *. destruct (is_internal (class_of l)) eqn:I; cbn [List.length] in *.
  - unfold theme_get. unfold is_internal in I. rewrite I. destruct (nth_error (internals th) used) as [s|] eqn:N; [|reflexivity]. cbn [bind fst].
    assert (used < List.length (internals th))%nat by (apply nth_error_Some; congruence). rewrite IH by lia. reflexivity.
  - destruct (plain_class th used _ I) as (s & E0 & K). rewrite E0. cbn [bind fst]. rewrite IH by lia. reflexivity.
Qed.

(** ** Painting *)
Local Notation seen := (ThemeSpec.seen P).
Lemma draw_all_ok th bg ls : forall used ss used' ms im l0,
  assign th used ls = Ok (used', ss) -> Forall2 (fun x m => drawing (fst x) (snd x) = Ok m) (combine ss ls) ms ->
  (forall p, mixed (l0 p) (im p)) ->
  exists im', draw_all P layer class_of drawing th bg used ls (Some im) = Ok (used', Some im') /\ forall p, mixed (l0 p ++ seen ss ms p) (im' p).
Proof.
  induction ls as [|l ls IH]; intros used ss used' ms im l0 A D M.
  - cbn in A. injection A as <- <-. cbn in D. inversion D; subst. exists im. split; [reflexivity|]. intros p. cbn. rewrite app_nil_r. apply M.
  - cbn [assign] in A. cbn [draw_all]. destruct (theme_get th used (class_of l)) as [[u s]|] eqn:G; [|discriminate]. cbn [bind fst snd] in *.
    destruct (assign th u ls) as [[u' ss']|] eqn:A'; [|discriminate]. cbn [bind fst snd] in A. injection A as <- <-. cbn [combine] in D. inversion D as [|x m xs ms' D1 D2]; subst.
    cbn [fst snd] in D1. unfold render_layer, draw_layer. rewrite D1. cbn [bind].
    destruct (IH u ss' u' ms' (fun p => over (s_color s) (s_alpha s * m p) (im p)) (fun p => l0 p ++ [(s_color s, s_alpha s * m p)]) A' D2) as (im' & E & M').
    { intros p. apply mixed_over, M. }
    exists im'. split; [exact E|]. intros p. specialize (M' p). rewrite <- app_assoc in M'. exact M'.
Qed.
Lemma background_of th : NoDup (map fst (given th)) -> of_background th (background th).
Proof.
  intros N. unfold of_background, background, attribute. cbn [lookup defaults]. rewrite String.eqb_refl. rewrite kwargs_lookup.
  destruct (lookup "background" (given th)) as [[s|]|] eqn:G.
  - left. now apply lookup_in.
  - right. split; [|now left]. intros (s & I). apply lookup_in in G. pose proof (nodup_same _ _ _ _ N I G). discriminate.
  - right. split; [|now left]. intros (s & I). apply lookup_none in G. apply in_fst in I. contradiction.
Qed.
Lemma C121_lemma th used ls : NoDup (map fst (given th)) -> ls <> [] -> (used + count ls <= List.length (internals th))%nat ->
  exists bg ss, of_background th bg /\ List.length ss = List.length ls /\
    (forall i s, nth_error ss i = Some s -> chosen th used (map class_of ls) i s /\ forall s', chosen th used (map class_of ls) i s' -> s' = s) /\
    forall ms, Forall2 (fun x m => drawing (fst x) (snd x) = Ok m) (combine ss ls) ms ->
      exists im, render_layers P layer class_of drawing th used ls = Ok ((used + count ls)%nat, im) /\
        forall p, mixed ((s_color bg, s_alpha bg) :: seen ss ms p) (im p).
Proof.
  intros N NE C. destruct (assign_ok th ls used C) as (ss & A & L & K). exists (background th), ss. split; [now apply background_of|]. split; [exact L|]. split.
  { intros i s E. split; [now apply K|]. intros s' (c & E1 & E2). destruct (K i s E) as (c' & E1' & E2'). rewrite E1 in E1'. injection E1' as <-.
    destruct (is_internal c); [congruence|]. exact (of_class_unique th c s' s N E2 E2'). }
  intros ms D. unfold render_layers. destruct ls as [|l ls]; [contradiction|].
  assert (X : exists im', draw_all P layer class_of drawing th (background th) used (l :: ls) (Some (paint_background P (Some (background th)))) = Ok ((used + count (l :: ls))%nat, Some im') /\
    forall p, mixed ([(s_color (background th), s_alpha (background th))] ++ seen ss ms p) (im' p)).
  { apply (draw_all_ok th (background th) (l :: ls) used ss _ ms _ (fun _ => [(s_color (background th), s_alpha (background th))]) A D).
    intros p. exact (mixed_over [] _ _ _ mixed_nil). }
  destruct X as (im' & E & M). exists im'. split; [|exact M].
  replace (draw_all P layer class_of drawing th (background th) used (l :: ls) None) with (draw_all P layer class_of drawing th (background th) used (l :: ls) (Some (paint_background P (Some (background th))))) by reflexivity.
  rewrite E. reflexivity.
Qed.
Lemma draw_all_stop th bg ls : (forall s l, exists m, drawing s l = Ok m) -> forall used im,
  assign th used ls = Err StopIteration -> draw_all P layer class_of drawing th bg used ls im = Err StopIteration.
Proof.
  intros D. induction ls as [|l ls IH]; intros used im A; [discriminate|]. cbn [assign draw_all] in *.
  destruct (theme_get th used (class_of l)) as [[u s]|] eqn:G; [|cbn [bind] in *; congruence]. cbn [bind fst snd] in *. unfold render_layer, draw_layer. destruct (D s l) as (m & ->). cbn [bind].
  apply IH. destruct (assign th u ls) as [[u' ss]|]; [discriminate|cbn [bind] in A; congruence].
Qed.
Lemma C121_stop_lemma th used ls : (used <= List.length (internals th))%nat -> (forall s l, exists m, drawing s l = Ok m) ->
  (render_layers P layer class_of drawing th used ls = Err StopIteration <-> (used + count ls > List.length (internals th))%nat).
Proof.
  intros U D. split.
  - intros E. destruct (Nat.leb_spec (used + count ls) (List.length (internals th))) as [H|H]; [|lia]. exfalso.
    destruct (assign_ok th ls used H) as (ss & A & L & _). unfold render_layers in E.
    assert (X : forall im, exists im', draw_all P layer class_of drawing th (background th) used ls im = Ok ((used + count ls)%nat, im')).
    { clear E. revert used ss U H A L. induction ls as [|l ls' IH]; intros used ss U H A L im; cbn [assign draw_all] in *; [injection A as A1 A2; rewrite <- A1; eauto|].
      destruct (theme_get th used (class_of l)) as [[u s]|] eqn:G; [|discriminate]. cbn [bind fst snd] in *. unfold render_layer, draw_layer. destruct (D s l) as (m & ->). cbn [bind].
      destruct (assign th u ls') as [[u' ss']|] eqn:A'; [|discriminate]. cbn [bind fst snd] in A. injection A as A1 A2.
      assert (Q : u' = (u + count ls')%nat /\ (u <= List.length (internals th))%nat /\ (u + count ls' <= List.length (internals th))%nat).
      { unfold ThemeSpec.count in *. cbn [filter] in *. unfold theme_get in G. unfold is_internal in *. destruct (String.eqb (class_of l) "internal"); cbn [List.length] in *.
        - destruct (nth_error (internals th) used); [|discriminate]. injection G as <- _. lia.
        - injection G as <- _. lia. }
      destruct Q as (Q1 & Q2 & Q3). rewrite Q1 in A'. assert (L' : (List.length ss' = List.length ls')%nat) by (rewrite <- A2 in L; cbn in L; lia).
      match goal with |- exists im', draw_all _ _ _ _ _ _ _ _ ?x = _ => destruct (IH u ss' Q2 Q3 A' L' x) as (im' & E') end.
      exists im'. rewrite E'. f_equal. f_equal. lia. }
    destruct (X None) as ([im'|] & E'); rewrite E' in E; discriminate.
  - intros H. unfold render_layers. rewrite (draw_all_stop th _ ls D used None (assign_fail th ls used H U)). reflexivity.
Qed.
End Stack.

(** ** What shows *)
Lemma through_01 l : Forall between01 l -> between01 (through l).
Proof.
  induction 1 as [|o l [O1 O2] F [I1 I2]]; cbn [through]; [split; discriminate|]. split.
  - replace 0 with (0 * through l) by ring. apply Qcmult_le_compat_r; [qclra|exact I1].
  - replace ((1 - o) * through l) with (through l - o * through l) by ring. pose proof (Qcmult_le_compat_r 0 o (through l) O1 I1) as H. qclra.
Qed.
Lemma mix_01 l : Forall (fun x => between01 (fst x) /\ between01 (snd x)) l -> between01 (mix l).
Proof.
  intros F. assert (G : 0 <= mix l /\ mix l <= 1 - through (map snd l)); [|destruct G as [G1 G2]; split; [exact G1|]].
  - induction F as [|[c o] l [[C1 C2] [O1 O2]] F [I1 I2]]; cbn [mix map through fst snd] in *; [split; [discriminate|qclra]|].
    assert (T01 : between01 (through (map snd l))) by (apply through_01; clear - F; induction F as [|x l [_ H] F IH]; constructor; auto).
    destruct T01 as [T1 T2].
    pose proof (Qcmult_le_compat_r 0 c o C1 O1) as H1. pose proof (Qcmult_le_compat_r c 1 o C2 O1) as H2.
    assert (H3 : 0 * through (map snd l) <= c * o * through (map snd l)) by (apply Qcmult_le_compat_r; [qclra|exact T1]).
    assert (H4 : c * o * through (map snd l) <= o * through (map snd l)) by (apply Qcmult_le_compat_r; [qclra|exact T1]).
    replace (0 * through (map snd l)) with 0 in H3 by ring. split; [qclra|].
    replace ((1 - o) * through (map snd l)) with (through (map snd l) - o * through (map snd l)) by ring. qclra.
  - assert (T01 : between01 (through (map snd l))) by (apply through_01; clear - F; induction F as [|x l [_ H] F IH]; constructor; auto). destruct T01. qclra.
Qed.
Lemma through_opaque a b : through (a ++ 1 :: b) = 0.
Proof. rewrite through_app. cbn [through]. ring. Qed.
(** The highest layer that hides everything, and nothing above it. *)
Lemma mix_hides below c above : Forall (fun x => snd x = 0) above -> mix (below ++ (c, 1) :: above) = c.
Proof.
  intros F. assert (T1 : through (map snd above) = 1 /\ mix above = 0).
  { induction F as [|[c' o] l H F [I1 I2]]; cbn in *; [split; reflexivity|]. subst o. rewrite I1, I2. split; ring. }
  destruct T1 as [T1 M1]. induction below as [|[c' o] l IH]; cbn [app mix].
  - rewrite T1, M1. ring.
  - rewrite IH, map_app. cbn [map snd]. rewrite through_opaque. ring.
Qed.
Lemma C122_lemma below c above p : mixed (below ++ (c, 1) :: above) p ->
  snd p = 1 /\ (Forall (fun x => snd x = 0) above -> fst p = c) /\
  (forall below', mixed (below' ++ (c, 1) :: above) p) /\
  (Forall (fun x => good_color (fst x) /\ between01 (snd x)) (below ++ (c, 1) :: above) -> good_color (fst p)).
Proof.
  assert (I : forall (f : color -> Qc) b, map (fun x => (f (fst x), snd x)) (b ++ (c, 1) :: above) = map (fun x => (f (fst x), snd x)) b ++ (f c, 1) :: map (fun x => (f (fst x), snd x)) above)
    by (intros; now rewrite map_app).
  assert (HID : forall (l : list (Qc * Qc)) x ab, mix (l ++ (x, 1) :: ab) = x * through (map snd ab) + mix ab).
  { clear. intros l x ab. induction l as [|[c o] l IH]; cbn [app mix]; [ring|]. rewrite IH, map_app. cbn [map snd]. rewrite through_opaque. ring. }
  intros (R & G & B & O). split; [|split; [|split]].
  - rewrite O, map_app. cbn [map snd]. rewrite through_opaque. ring.
  - intros F. assert (F' : forall (f : color -> Qc), Forall (fun x => snd x = 0) (map (fun x => (f (fst x), snd x)) above)).
    { intros f. clear - F. induction F; constructor; auto. }
    rewrite I in R, G, B. rewrite mix_hides in R, G, B by apply F'. destruct p as [[[r g] b] o], c as [[cr cg] cb]. unfold red, green, blue in *. cbn in *. congruence.
  - intros below'. unfold mixed. rewrite !I, !HID. rewrite !I, !HID in R. rewrite !I, !HID in G. rewrite !I, !HID in B.
    split; [exact R|]. split; [exact G|]. split; [exact B|]. rewrite O, !map_app. cbn [map snd]. now rewrite !through_opaque.
  - intros F. unfold good_color. rewrite R, G, B.
    split; [|split]; apply mix_01; clear - F; induction F as [|x l [(X1 & X2 & X3) X4] F IH]; constructor; auto.
Qed.

(** ** The pixels of images *)
Section Pixels.
Variable P layer : Type.
Variable class_of : layer -> string.
Variable drawing : settings -> layer -> res (P -> Qc).
Lemma seen_split (ss : list settings) (ms : list (P -> Qc)) p : forall k s m, nth_error ss k = Some s -> nth_error ms k = Some m ->
  seen P ss ms p = seen P (firstn k ss) (firstn k ms) p ++ (s_color s, s_alpha s * m p) :: seen P (skipn (S k) ss) (skipn (S k) ms) p.
Proof.
  revert ms. induction ss as [|s0 ss IH]; intros [|m0 ms] [|k] s m E1 E2; try discriminate; cbn [nth_error] in *.
  - injection E1 as ->. injection E2 as ->. reflexivity.
  - unfold ThemeSpec.seen in *. cbn [combine map firstn skipn app fst snd]. now rewrite (IH ms k s m E1 E2).
Qed.
Lemma seen_zero p : forall (ss : list settings) (ms : list (P -> Qc)), Forall (fun m => m p = 0) ms -> Forall (fun x => snd x = 0) (seen P ss ms p).
Proof.
  induction ss as [|s ss IH]; intros [|m ms] F; try constructor; apply Forall_cons_iff in F as [F1 F2]; cbn.
  - rewrite F1. ring.
  - now apply IH.
Qed.
Lemma seen_good p : forall (ss : list settings) (ms : list (P -> Qc)), Forall good_settings ss -> Forall (fun m => between01 (m p)) ms ->
  Forall (fun x => good_color (fst x) /\ between01 (snd x)) (seen P ss ms p).
Proof.
  induction ss as [|s ss IH]; intros [|m ms] F G; try constructor; apply Forall_cons_iff in F as [[F1 [F3 F4]] F2]; apply Forall_cons_iff in G as [[G1 G3] G2]; cbn [fst snd].
  - split; [exact F1|]. pose proof (Qcmult_le_compat_r 0 (s_alpha s) (m p) F3 G1) as H1. pose proof (Qcmult_le_compat_r (s_alpha s) 1 (m p) F4 G1) as H2. split; qclra.
  - now apply IH.
Qed.
Lemma C122_image bg ss ms pix p : Forall good_settings ss -> good_settings bg -> s_alpha bg = 1 -> Forall (fun m => between01 (m p)) ms ->
  mixed ((s_color bg, s_alpha bg) :: seen P ss ms p) pix ->
  snd pix = 1 /\ good_color (fst pix) /\
  (Forall (fun m => m p = 0) ms -> fst pix = s_color bg) /\
  (forall k s m, nth_error ss k = Some s -> nth_error ms k = Some m -> s_alpha s = 1 -> m p = 1 ->
     Forall (fun m => m p = 0) (skipn (S k) ms) -> fst pix = s_color s).
Proof.
  intros GS GB A GM M. rewrite A in M. destruct (C122_lemma [] (s_color bg) (seen P ss ms p) pix M) as (O & H & _ & G).
  split; [exact O|]. split; [|split].
  - apply G. cbn [app]. constructor; [|now apply seen_good]. split; [apply GB|]. cbn. split; discriminate.
  - intros F. apply H. now apply seen_zero.
  - intros k s m E1 E2 A1 M1 F. rewrite (seen_split ss ms p k s m E1 E2) in M. rewrite A1, M1 in M. replace (1 * 1) with 1 in M by ring.
    destruct (C122_lemma ((s_color bg, 1) :: seen P (firstn k ss) (firstn k ms) p) (s_color s) _ pix M) as (_ & H' & _). apply H'. now apply seen_zero.
Qed.
End Pixels.
(** ** Sides *)
Lemma C123_lemma th : NoDup (map fst (given th)) ->
  (forall c s, In (c, Some s) (given th) ->
     (In c bottom_classes -> s_mirror s = true) /\ (In c top_classes -> s_mirror s = false) /\ (In c ["topmask"; "bottommask"]%string -> s_invert s = true)) ->
  (forall c, In (c, None) (given th) -> ~ In c bottom_classes /\ c <> "topmask"%string) -> good_sides th.
Proof.
  intros N G O. split; [|split]; intros c s I K; destruct K as [s H1 H2|s H1 H2|H1|H1].
  - now apply (G c s H2).
  - cbn in I. cbn in H2. repeat (destruct I as [<-|I]; [repeat (destruct H2 as [H2|H2]; [try discriminate; injection H2 as <-; reflexivity|]); contradiction|]). contradiction.
  - now apply O in H1.
  - exfalso. apply H1. cbn in I. cbn. intuition.
  - now apply (G c s H2).
  - cbn in I. cbn in H2. repeat (destruct I as [<-|I]; [repeat (destruct H2 as [H2|H2]; [try discriminate; injection H2 as <-; reflexivity|]); contradiction|]). contradiction.
  - reflexivity.
  - reflexivity.
  - now apply (G c s H2).
  - cbn in I. cbn in H2. repeat (destruct I as [<-|I]; [repeat (destruct H2 as [H2|H2]; [try discriminate; injection H2 as <-; reflexivity|]); contradiction|]). contradiction.
  - exfalso. apply O in H1 as [H1 H2]. cbn in I. destruct I as [<-|[<-|[]]]; [contradiction|]. apply H1. cbn. auto.
  - exfalso. apply H1. cbn in I. cbn. intuition.
Qed.
