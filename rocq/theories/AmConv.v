(** Lemmas about building and converting the primitives of aperture macros. *)
From Verif Require Import PyBase QcLib NumModel NumSpec NumProofs FloatCodec MacroModel MacroSpec MacroProofs GerberText GerberEval AmModel AmSpec AmProofs.
Open Scope Qc_scope.
Open Scope list_scope.

Lemma build_means bs vs ys ps : Forall block_ok bs -> macro_value (modifier_env vs) bs = Some ys ->
  Forall2 (fun y p => exists ws, snd y = map MNum ws /\ means (fst y) (map rnd53 ws) p) ys ps ->
  exists is, read_macro (macro_text bs) = Ok is /\ am_build is vs = Ok ps.
Proof.
  intros B V F. destruct (macro_meaning_lemma bs vs [] B) as (is & R & E). exists is. split; [exact R|].
  unfold am_build. rewrite E, V. cbn [bind fst]. clear - F. induction F as [|[c ms] p ys ps (ws & A & M) _ IH]; [reflexivity|].
  cbn in A. subst ms. cbn [mapM]. rewrite (means_reads c ws p M). cbn [bind]. now rewrite IH.
Qed.

(** ** Conversion *)
Definition scale (k v : Qc) : Qc := v * k.
Definition applied (k : Qc) (ks : list kind) (vs : list Qc) : list Qc :=
  map (fun p => match fst p with Length => snd p * k | _ => snd p end) (List.combine ks vs).

Lemma applied_coords k l : applied k (repeat Length (2 * List.length l)) (coords l) = coords (map (pmap (scale k)) l).
Proof.
  induction l as [|[x y] l IH]; [reflexivity|]. cbn [List.length]. replace (2 * S (List.length l))%nat with (S (S (2 * List.length l))) by lia.
  cbn [repeat coords applied List.combine map fst snd pmap]. unfold applied in IH. now rewrite IH.
Qed.
Lemma applied_app k a b u v : List.length a = List.length u -> applied k (a ++ b) (u ++ v) = applied k a u ++ applied k b v.
Proof.
  intros L. unfold applied. rewrite <- map_app. f_equal. revert u L. induction a as [|x a IH]; intros [|y u] L; try discriminate; [reflexivity|].
  cbn [app List.combine]. f_equal. apply IH. now injection L.
Qed.
Lemma last_map {A B} (f : A -> B) l d e : l <> [] -> List.last (map f l) e = f (List.last l d).
Proof. induction l as [|a [|b l] IH]; [congruence|reflexivity|]. intros _. cbn [map List.last] in *. now apply IH. Qed.

Lemma convert_scales k c vs p : means c vs p -> exists n vs', rescaled k c n vs vs' /\ means c vs' (prim_convert (scale k) p).
Proof.
  intros M. destruct M.
  all: try (exists 0%nat; eexists; split; [eexists; split; [reflexivity|split; reflexivity]|cbn [kinds List.combine map fst snd prim_convert pmap]; constructor; auto]).
  - destruct H as [->| ->]; exists 0%nat; eexists; (split; [eexists; split; [reflexivity|split; reflexivity]|]); cbn; apply (M_vector); auto.
  - assert (LC : List.length (coords (s :: l)) = (2 * (List.length l + 1))%nat) by (rewrite coords_length; cbn [List.length]; lia).
    exists (List.length l), (e :: q :: coords (map (pmap (scale k)) (s :: l)) ++ [r]). split.
    + eexists. split; [reflexivity|]. split.
      * cbn [kinds List.length]. rewrite !app_length, LC, repeat_length. cbn [List.length]. lia.
      * cbn [kinds List.combine map fst snd]. do 2 f_equal.
        change (map (fun p => match fst p with Length => snd p * k | _ => snd p end) (List.combine (repeat Length (2 * (List.length l + 1)) ++ [Angle]) (coords (s :: l) ++ [r])))
          with (applied k (repeat Length (2 * (List.length l + 1)) ++ [Angle]) (coords (s :: l) ++ [r])).
        rewrite applied_app by (rewrite repeat_length, LC; reflexivity). replace (List.length l + 1)%nat with (List.length (s :: l)) by (cbn; lia).
        rewrite applied_coords. reflexivity.
    + cbn [prim_convert map]. constructor; auto.
      * destruct l; [contradiction|discriminate].
      * now rewrite map_length.
      * rewrite (last_map _ _ (0, 0)) by auto. now rewrite H2.
Qed.

Lemma metric_scale : forall v, metric v = scale mm_per_inch v.
Proof. reflexivity. Qed.
Lemma inch_scale v : inch v = scale (/ mm_per_inch) v.
Proof. reflexivity. Qed.
Lemma pmap_ext f g p : (forall v, f v = g v) -> pmap f p = pmap g p.
Proof. intros H. unfold pmap. now rewrite !H. Qed.
Lemma prim_convert_ext f g p : (forall v, f v = g v) -> prim_convert f p = prim_convert g p.
Proof.
  intros H. destruct p; cbn [prim_convert]; rewrite ?H, ?(pmap_ext f g) by auto; auto. f_equal.
  apply map_ext. intros. now apply pmap_ext.
Qed.
Lemma pmap_inverse f g p : (forall v, f (g v) = v) -> pmap f (pmap g p) = p.
Proof. intros H. destruct p. unfold pmap. cbn. now rewrite !H. Qed.
Lemma prim_convert_inverse f g p : (forall v, f (g v) = v) -> prim_convert f (prim_convert g p) = p.
Proof.
  intros H. destruct p; cbn [prim_convert]; rewrite ?H, ?pmap_inverse by auto; auto. f_equal.
  rewrite map_map. rewrite <- map_id. apply map_ext. intros. now apply pmap_inverse.
Qed.
Lemma metric_inch v : metric (inch v) = v.
Proof. unfold metric, inch. field. discriminate. Qed.
Lemma inch_metric v : inch (metric v) = v.
Proof. unfold metric, inch. field. discriminate. Qed.
Lemma prims_inverse f g ps : (forall v, f (g v) = v) -> map (prim_convert f) (map (prim_convert g) ps) = ps.
Proof. intros H. rewrite map_map. rewrite <- map_id. apply map_ext. intros. now apply prim_convert_inverse. Qed.

Lemma convert_statement s : am_to_metric (am_to_metric s) = am_to_metric s /\ am_to_inch (am_to_inch s) = am_to_inch s /\
  (am_units s = Inch -> am_to_inch (am_to_metric s) = s) /\ (am_units s = Metric -> am_to_metric (am_to_inch s) = s).
Proof.
  destruct s as [n [|] ps]; unfold am_to_metric, am_to_inch; cbn [am_units am_name am_prims]; repeat split; auto; try discriminate; intros _; f_equal;
    apply prims_inverse; [exact inch_metric|exact metric_inch].
Qed.

Lemma Forall2_map_r {A} (P : A -> A -> Prop) f l : (forall x, P x (f x)) -> Forall2 P l (map f l).
Proof. intros H. induction l; constructor; auto. Qed.
Lemma to_metric_lemma s : am_units s = Inch ->
  am_units (am_to_metric s) = Metric /\ am_name (am_to_metric s) = am_name s /\
  Forall2 (fun p p' => forall c vs, means c vs p -> exists n vs', rescaled (Q2Qc (127 # 5)) c n vs vs' /\ means c vs' p')
    (am_prims s) (am_prims (am_to_metric s)).
Proof.
  destruct s as [nm u ps]. cbn [am_units]. intros ->. unfold am_to_metric. cbn [am_units am_name am_prims]. split; [reflexivity|]. split; [reflexivity|].
  apply Forall2_map_r. intros p c vs M. rewrite (prim_convert_ext metric (scale (Q2Qc (127 # 5)))) by reflexivity. now apply convert_scales.
Qed.
Lemma to_inch_lemma s : am_units s = Metric ->
  am_units (am_to_inch s) = Inch /\ am_name (am_to_inch s) = am_name s /\
  Forall2 (fun p p' => forall c vs, means c vs p -> exists n vs', rescaled (Q2Qc (5 # 127)) c n vs vs' /\ means c vs' p')
    (am_prims s) (am_prims (am_to_inch s)).
Proof.
  destruct s as [nm u ps]. cbn [am_units]. intros ->. unfold am_to_inch. cbn [am_units am_name am_prims]. split; [reflexivity|]. split; [reflexivity|].
  apply Forall2_map_r. intros p c vs M. rewrite (prim_convert_ext inch (scale (Q2Qc (5 # 127)))); [now apply convert_scales|].
  intros v. unfold inch, scale, Qcdiv. f_equal.
Qed.
