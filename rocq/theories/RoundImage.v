(** The image of rounded statements. *)
From Verif Require Import NumProofs GerberEvalProofs RoundSpec RoundText.
Open Scope list_scope.
Open Scope Qc_scope.

Section Near.
Variable e : Qc.
Hypothesis He : 0 <= e.
Notation rd := (rounded e).

Lemma within_refl v : within e v v.
Proof. unfold within. replace (v - v) with 0 by ring. exact He. Qed.
Lemma about_refl v : about v v.
Proof. unfold about. replace (v - v) with 0 by ring. pose proof (qabs_nonneg v). change (qabs 0) with 0. rewrite <- (Qcmult_0_l (Q2Qc (1 # 2000))). apply Qcmult_le_compat_r; [assumption|discriminate]. Qed.
Lemma half_twice v : v / zq 2 + v / zq 2 = v.
Proof. assert (E : zq 2 = 1 + 1) by now apply Qc_is_canon. rewrite E. field. now vm_compute. Qed.
Lemma about_half v w : about v w -> about (v / zq 2) (w / zq 2).
Proof.
  unfold about. intros H.
  assert (A : forall y, qabs (y + y) = qabs y + qabs y).
  { intros y. unfold qabs. repeat match goal with |- context [Qclt_le_dec ?a ?b] => destruct (Qclt_le_dec a b) end; try ring; exfalso; qclra. }
  rewrite <- (half_twice v), <- (half_twice w) in H. revert H. generalize (v / zq 2) (w / zq 2). intros a b.
  replace (a + a - (b + b)) with ((a - b) + (a - b)) by ring. rewrite !A, Qcmult_plus_distr_l. generalize (qabs a * Q2Qc (1 # 2000)) (qabs (a - b)). intros. qclra.
Qed.
Lemma qabs_add a b : qabs (a + b) <= qabs a + qabs b.
Proof. unfold qabs. destruct (Qclt_le_dec (a + b) 0), (Qclt_le_dec a 0), (Qclt_le_dec b 0); qclra. Qed.
Lemma within_add a b a' b' : within e a a' -> within e b b' -> within (e + e) (a + b) (a' + b').
Proof.
  unfold within. intros A B. replace (a + b - (a' + b')) with ((a - a') + (b - b')) by ring. pose proof (qabs_add (a - a') (b - b')). qclra.
Qed.

(** ** Modal values *)
Notation rds := (Forall2 rd).
Lemma latest_same {A} (f : stmt -> option A) d p p' : (forall s s', rd s s' -> f s' = f s) -> rds p p' -> latest f d p' = latest f d p.
Proof. intros H. induction 1 as [|s s' p p' Hs Hp IH]; [reflexivity|]. cbn [latest]. rewrite (H s s' Hs). now rewrite IH. Qed.
Lemma latest_near (f : stmt -> option Qc) d p p' : (forall s s', rd s s' -> maybe (within e) (f s) (f s')) -> rds p p' -> within e (latest f d p) (latest f d p').
Proof.
  intros H. induction 1 as [|s s' p p' Hs Hp IH]; [apply within_refl|]. cbn [latest]. specialize (H s s' Hs). destruct (f s), (f s'); cbn in H; try contradiction; assumption.
Qed.
Ltac same := intros; apply latest_same; [|assumption]; let s := fresh in let s' := fresh in let H := fresh in intros s s' H; destruct H; reflexivity.
Lemma op_same p p' : rds p p' -> current_op p' = current_op p. Proof. same. Qed.
Lemma selection_same p p' : rds p p' -> current_selection p' = current_selection p. Proof. same. Qed.
Lemma polarity_same p p' : rds p p' -> current_polarity p' = current_polarity p. Proof. same. Qed.
Lemma units_same p p' : rds p p' -> current_units p' = current_units p. Proof. same. Qed.
Lemma quadrant_same p p' : rds p p' -> current_quadrant p' = current_quadrant p. Proof. same. Qed.
Lemma region_same p p' : rds p p' -> in_region p' = in_region p. Proof. same. Qed.
Lemma point_near p p' : rds p p' -> near_point e (current_point p) (current_point p').
Proof.
  intros H. split; cbn [current_point fst snd]; apply latest_near; auto; intros s s' R; destruct R as [fn x y i j op x' y' i' j' X Y _ _| |s N M]; cbn; auto;
    try (destruct x, x', y, y'; cbn in *; auto; contradiction).
  - destruct s; cbn; auto. exfalso. eapply N. reflexivity.
  - destruct s; cbn; auto. exfalso. eapply N. reflexivity.
Qed.
Lemma motion_code_same s s' : rd s s' -> sets_motion s' = sets_motion s.
Proof. now intros []. Qed.
Lemma maybe_shape {A} (R : A -> A -> Prop) a b : maybe R a b -> (a = None <-> b = None).
Proof. destruct a, b; cbn; intuition discriminate. Qed.
Lemma mode_only_same s s' : rd s s' -> mode_only s' = mode_only s.
Proof.
  intros [fn x y i j op x' y' i' j' X Y I' J| |]; try reflexivity. cbn. destruct fn, x, x', y, y', i, i', j, j'; cbn in *; try contradiction; reflexivity.
Qed.
Lemma action_same p p' s s' : rds p p' -> rd s s' -> action p' s' = action p s.
Proof.
  intros P R. pose proof (mode_only_same s s' R) as M. pose proof (op_same p p' P) as O. unfold action.
  destruct R as [fn x y i j op x' y' i' j' X Y I' J| |s N N']; [|reflexivity|destruct s; try reflexivity; exfalso; eapply N; reflexivity].
  rewrite M, O. reflexivity.
Qed.
Lemma motion_same p p' : rds p p' -> current_motion p' = current_motion p.
Proof.
  induction 1 as [|s s' p p' Hs Hp IH]; [reflexivity|]. cbn [current_motion]. rewrite (action_same p p' s s' Hp Hs), (region_same p p' Hp), (motion_code_same s s' Hs), IH. reflexivity.
Qed.

(** ** Apertures *)
Lemma definition_near past past' name l l' : In name [T "C"; T "R"; T "O"; T "P"] -> Forall2 about l l' -> (name = T "P" -> nth 1 l' 0 = nth 1 l 0) ->
  maybe near_shape (definition past name l) (definition past' name l').
Proof.
  intros N F P. pose proof about_refl as Z.
  assert (B : forall v w, about v w -> about (v / zq 2) (w / zq 2)) by apply about_half.
  destruct N as [<-|[<-|[<-|[<-|[]]]]]; unfold definition.
  - change (teq (T "C") (T "C")) with true. cbv iota. inversion F as [|a a' ? ? A F1]; subst; [exact I|]. inversion F1 as [|b b' ? ? A1 F2]; subst; [cbn; constructor; auto|].
    inversion F2 as [|c c' ? ? A2 F3]; subst; [cbn; constructor; auto|]. inversion F3; subst; cbn; constructor; auto.
  - change (teq (T "R") (T "C")) with false. change (teq (T "R") (T "R")) with true. cbv iota. inversion F as [|a a' ? ? A F1]; subst; [exact I|]. inversion F1 as [|b b' ? ? A1 F2]; subst; [exact I|].
    inversion F2 as [|c c' ? ? A2 F3]; subst; [cbn; constructor; auto|]. inversion F3 as [|d d' ? ? A3 F4]; subst; [cbn; constructor; auto|]. inversion F4; subst; cbn; constructor; auto.
  - change (teq (T "O") (T "C")) with false. change (teq (T "O") (T "R")) with false. change (teq (T "O") (T "O")) with true. cbv iota. inversion F as [|a a' ? ? A F1]; subst; [exact I|]. inversion F1 as [|b b' ? ? A1 F2]; subst; [exact I|].
    inversion F2 as [|c c' ? ? A2 F3]; subst; [cbn; constructor; auto|]. inversion F3 as [|d d' ? ? A3 F4]; subst; [cbn; constructor; auto|]. inversion F4; subst; cbn; constructor; auto.
  - change (teq (T "P") (T "C")) with false. change (teq (T "P") (T "R")) with false. change (teq (T "P") (T "O")) with false. change (teq (T "P") (T "P")) with true. cbv iota. specialize (P eq_refl).
    inversion F as [|a a' ? ? A F1]; subst; [exact I|]. inversion F1 as [|b b' ? ? A1 F2]; subst; [exact I|]. cbn [nth] in P. subst b'.
    inversion F2 as [|c c' ? ? A2 F3]; subst; [cbn; constructor; auto|]. inversion F3 as [|d d' ? ? A3 F4]; subst; [cbn; constructor; auto|]. inversion F4; subst; cbn; constructor; auto.
Qed.
Lemma aperture_near d p p' : rds p p' -> maybe (near_obj e) (aperture_of d p) (aperture_of d p').
Proof.
  induction 1 as [|s s' p p' Hs Hp IH]; [exact I|]. destruct Hs as [fn x y i j op x' y' i' j' X Y I' J|n name l l' N F W Q|s N N'].
  - exact IH.
  - cbn [aperture_of]. destruct (Z.eq_dec n d); [|exact IH]. cbn [hd]. pose proof (definition_near p p' name l l' N F Q) as D. rewrite (units_same p p' Hp).
    destruct (definition p name l), (definition p' name l'); cbn in D; try contradiction; cbn; auto. split; [exact D|]. cbn. auto.
  - destruct s; try exact IH. exfalso. eapply N'. reflexivity.
Qed.

(** ** Marks *)
Lemma or_near o o' a a' : maybe (within e) o o' -> within e a a' -> within e (or_else o a) (or_else o' a').
Proof. destruct o, o'; cbn; tauto. Qed.
Lemma target_near p p' s s' : rds p p' -> rd s s' -> near_point e (target p s) (target p' s').
Proof.
  intros P R. pose proof (point_near p p' P) as C. destruct R as [fn x y i j op x' y' i' j' X Y I' J| |s N N'].
  - destruct C as [C1 C2]. split; cbn [target fst snd]; apply or_near; auto.
  - exact C.
  - destruct s; try exact C. exfalso. eapply N. reflexivity.
Qed.
Lemma path_near fc p p' s s' a a' : rds p p' -> rd s s' -> maybe (near_obj e) a a' -> near_seg e (path fc p s a) (path fc p' s' a').
Proof.
  intros P R A. unfold path. rewrite (motion_same p p' P), (motion_code_same s s' R), (polarity_same p p' P), (units_same p p' P), (quadrant_same p p' P).
  pose proof (point_near p p' P) as C. pose proof (target_near p p' s s' P R) as G.
  set (o := match s with SCoord _ _ _ i j _ => (or_else i 0, or_else j 0) | _ => (0, 0) end).
  set (o' := match s' with SCoord _ _ _ i j _ => (or_else i 0, or_else j 0) | _ => (0, 0) end).
  assert (O : near_point e o o').
  { unfold o, o'. pose proof within_refl. destruct R as [fn x y i j op x' y' i' j' X Y I' J| |s N N']; [|split; auto|destruct s; split; auto].
    split; cbn [fst snd]; apply or_near; auto. }
  cbv zeta. destruct C as [C1 C2], O as [O1 O2].
  destruct (or_else (sets_motion s) (current_motion p)); constructor; auto; try (split; assumption); intros E; rewrite E; cbn; split; now apply within_add.
Qed.
Lemma contour_near fc p p' : rds p p' -> Forall2 (near_seg e) (contour fc p) (contour fc p').
Proof.
  induction 1 as [|s s' p p' Hs Hp IH]; [constructor|]. pose proof (action_same p p' s s' Hp Hs) as Ac. pose proof (region_same p p' Hp) as Re.
  assert (P : Forall2 (near_seg e) (contour fc p ++ [path fc p s (aperture_of (current_selection p) p)]) (contour fc p' ++ [path fc p' s' (aperture_of (current_selection p') p')])).
  { apply Forall2_app; [exact IH|]. constructor; [|constructor]. rewrite (selection_same p p' Hp). apply path_near; auto using aperture_near. }
  destruct Hs as [fn x y i j op x' y' i' j' X Y I' J| |s N N'].
  - cbn [contour]. rewrite Ac, Re. destruct (in_region p), (action p _); auto; constructor.
  - cbn [contour]. rewrite Ac, Re. destruct (in_region p), (action p _); auto; constructor.
  - destruct s; cbn [contour]; rewrite ?Ac, ?Re; try (destruct (in_region p), (action p _); auto; constructor).
    destruct m; [|constructor]. cbn [action] in *. destruct (in_region p); auto; constructor.
Qed.
Definition near_marks (a b : option (list mark)) : Prop := maybe (Forall2 (near e)) a b.
Lemma marks_near fc p p' s s' : rds p p' -> rd s s' -> near_marks (marks fc p s) (marks fc p' s').
Proof.
  intros P R. pose proof (contour_near fc p p' P) as C. pose proof (action_same p p' s s' P R) as Ac. pose proof (region_same p p' P) as Re.
  pose proof (aperture_near (current_selection p) p p' P) as A. pose proof (target_near p p' s s' P R) as G.
  pose proof (fun a a' => path_near fc p p' s s' a a' P R) as Pa.
  pose proof (polarity_same p p' P) as Po. pose proof (units_same p p' P) as Un. pose proof (selection_same p p' P) as Se.
  assert (Body : near_marks
    (match action p s, in_region p with
      | Other, _ => Some []
      | Move, Off => Some []
      | Move, On => match contour fc p with _ :: _ :: _ => Some [Fill (contour fc p) (current_polarity p) (current_units p)] | _ => Some [] end
      | Draw, On => Some []
      | Draw, Off => match aperture_of (current_selection p) p with Some _ => Some [Stroke (path fc p s (aperture_of (current_selection p) p))] | None => None end
      | Flash, _ => match aperture_of (current_selection p) p with Some o => Some [Stamp (mkObj (o_shape o) (Some (target p s)) (current_polarity p) (current_units p))] | None => None end
      end)
    (match action p' s', in_region p' with
      | Other, _ => Some []
      | Move, Off => Some []
      | Move, On => match contour fc p' with _ :: _ :: _ => Some [Fill (contour fc p') (current_polarity p') (current_units p')] | _ => Some [] end
      | Draw, On => Some []
      | Draw, Off => match aperture_of (current_selection p') p' with Some _ => Some [Stroke (path fc p' s' (aperture_of (current_selection p') p'))] | None => None end
      | Flash, _ => match aperture_of (current_selection p') p' with Some o => Some [Stamp (mkObj (o_shape o) (Some (target p' s')) (current_polarity p') (current_units p'))] | None => None end
      end)).
  { rewrite Ac, Re, Po, Un, Se. assert (Pa' := Pa _ _ A). destruct (action p s), (in_region p); try (constructor; fail).
    - destruct (aperture_of (current_selection p) p), (aperture_of (current_selection p) p'); cbn in A; try contradiction; try exact I. cbn. constructor; [|constructor]. now constructor.
    - pose proof C as C'. destruct C' as [|a a' l l' H1 [|b b' l2 l2' H2 H3]]; try constructor. constructor. repeat constructor; auto. constructor.
    - destruct (aperture_of (current_selection p) p), (aperture_of (current_selection p) p'); cbn in A; try contradiction; try exact I. cbn. constructor; [|constructor]. constructor. destruct A as (A1 & A2 & A3 & A4). split; [exact A1|]. cbn. auto.
    - destruct (aperture_of (current_selection p) p), (aperture_of (current_selection p) p'); cbn in A; try contradiction; try exact I. cbn. constructor; [|constructor]. constructor. destruct A as (A1 & A2 & A3 & A4). split; [exact A1|]. cbn. auto. }
  destruct R as [fn x y i j op x' y' i' j' X Y I' J| |s N N']; try exact Body.
  destruct s; try exact Body. destruct m; [exact Body|]. cbn [marks]. rewrite Re, Po, Un. destruct (in_region p); [|constructor].
  pose proof C as C'. destruct C' as [|a a' l l' H1 H2]; [constructor|]. constructor; [|constructor]. constructor. now constructor.
Qed.
Lemma image_near fc : forall l l' p p', rds p p' -> rds l l' -> near_marks (image fc p l) (image fc p' l').
Proof.
  intros l l' p p' P R. revert p p' P. induction R as [|s s' l l' Hs Hl IH]; intros p p' P; [constructor|]. cbn [image].
  pose proof (marks_near fc p p' s s' P Hs) as M. pose proof (IH (s :: p) (s' :: p') ltac:(now constructor)) as Q. unfold near_marks in *.
  destruct (marks fc p s), (marks fc p' s'); cbn in M; try contradiction; [|exact I].
  destruct (image fc (s :: p) l), (image fc (s' :: p') l'); cbn in Q; try contradiction; [|exact I]. cbn. now apply Forall2_app.
Qed.
Lemma definitions_near : forall l l' p p', rds p p' -> rds l l' -> definitions_ok p l -> definitions_ok p' l'.
Proof.
  intros l l' p p' P R. revert p p' P. induction R as [|s s' l l' Hs Hl IH]; intros p p' P D; [exact I|]. cbn [definitions_ok] in *. destruct D as [D1 D2].
  split; [|apply (IH (s :: p)); auto; now constructor]. destruct Hs as [fn x y i j op x' y' i' j' X Y I' J|n name d d' N F W Q|s N N'].
  - exact I.
  - destruct D1 as (dims & rest & sh & E & Df). injection E as <- <-. exists d', []. pose proof (definition_near p p' name d d' N F Q) as G. rewrite Df in G. destruct (definition p' name d') as [sh'|]; [|contradiction]. eauto.
  - destruct s; auto. exfalso. eapply N'. reflexivity.
Qed.
End Near.

Lemma half_ulp_nonneg d : 0 <= half_ulp d.
Proof.
  pose proof (zq_p10_pos d). apply (qc_mult_le_r _ _ (zq (p10 d)) H). rewrite half_ulp_scaled. replace (0 * zq (p10 d)) with 0 by ring. discriminate.
Qed.
Lemma C129_lemma st l : announceable st -> Forall (fitting st) l -> format_before_coords l ->
  exists t l', write_file st l = Ok t /\ write_file st l' = Ok t /\ (forall fs, parse_text fs t = Ok (l', fold_left after l pset0)) /\
    Forall2 (rounded (half_ulp (snd (p_fmt st)))) l l' /\
    forall fc, definitions_ok [] l ->
      match image fc [] l with
      | Some ms => exists g' k' ms', evaluate_all fc g_init l' = Ok (g', k') /\ shown g' = map Some ms' /\ Forall2 (near (half_ulp (snd (p_fmt st)))) ms ms'
      | None => evaluate_all fc g_init l' = Err KeyError
      end.
Proof.
  intros An F B. destruct (rounded_file st l An F B) as (t & l' & W & W' & P & R). exists t, l'. repeat (split; [assumption|]). intros fc D.
  pose proof (half_ulp_nonneg (snd (p_fmt st))) as He. pose proof (definitions_near _ l l' [] [] (Forall2_nil _) R D) as D'.
  pose proof (image_near _ He fc l l' [] [] (Forall2_nil _) R) as N. destruct (undefined_aperture fc l' D') as [U1 U2].
  unfold near_marks in N. destruct (image fc [] l) as [ms|], (image fc [] l') as [ms'|] eqn:E; cbn in N; try contradiction; [|now apply U1].
  specialize (U2 ltac:(discriminate)). destruct (evaluate_all fc g_init l') as [[g' k']|] eqn:V; [|discriminate U2].
  destruct (proj2 (evaluate_image fc l' [] g_init g' k' (inv_init fc) V)) as (ms2 & I2 & S2). rewrite E in I2. injection I2 as <-. exists g', k', ms'. split; [reflexivity|]. split; [exact S2|exact N].
Qed.
