(** Lemmas about names of SVG files. *)
From Verif Require Import PyBase LayersModel LayersSpec LayersProofs SvgSpec.
From Verif Require SessionModel.
Import ListNotations.
Open Scope list_scope.

Lemma path_split f : exists d s, f = d ++ s /\ directory d /\ ~ In "/"%char s.
Proof.
  induction f as [|c f (d & s & E & D & N)]; [exists [], []; split; [reflexivity|split; [now left|easy]]|].
  destruct D as [->|(d' & ->)].
  - cbn in E. subst f. destruct (ceq_spec c "/"%char) as [->|C].
    + exists (T "/"), s. split; [reflexivity|]. split; [right; now exists []|exact N].
    + exists [], (c :: s). split; [reflexivity|]. split; [now left|]. intros [I|I]; [now apply C|now apply N].
  - exists (c :: d' ++ T "/"), s. split; [cbn; now rewrite E|]. split; [right; now exists (c :: d')|exact N].
Qed.
Lemma lower_dir d : directory d -> directory (lower d).
Proof. intros [->|(d' & ->)]; [now left|]. right. exists (lower d'). unfold lower. now rewrite map_app. Qed.
Lemma last_dot_whole s : forall a b, last_dot s = Some (a, b) -> s = a ++ b.
Proof.
  induction s as [|c s IH]; intros a b; [discriminate|]. cbn [last_dot]. destruct (last_dot s) as [[a' b']|]; [intros [= <- <-]; cbn; f_equal; now apply IH|].
  destruct (ceq c "."%char); [intros [= <- <-]; reflexivity|discriminate].
Qed.
Lemma svg_letters ext : same_but_case ext (T "svg") -> ~ In "/"%char ext /\ ~ In "."%char ext.
Proof.
  intros S. apply lower_case in S. change (lower (T "svg")) with (T "svg") in S.
  split; intros I; apply (in_map lower_chr) in I; unfold lower in S; rewrite S in I; cbn in I; repeat (destruct I as [I|I]; [discriminate|]); exact I.
Qed.
Lemma is_svg_name f : SessionModel.is_svg f = true <-> svg_name f.
Proof.
  unfold SessionModel.is_svg. split.
  - intros H. apply teq_true in H. destruct (path_split f) as (d & s & -> & D & N). unfold lower in H. rewrite map_app in H. change (map lower_chr d) with (lower d) in H. change (map lower_chr s) with (lower s) in H.
    rewrite basename_dir in H; [|now apply lower_dir|now apply lower_notin; [apply lower_slash|]]. unfold splitext in H. destruct (last_dot (lower s)) as [[a b]|] eqn:E; [|discriminate].
    apply last_dot_whole in E. destruct (forallb (ceq "."%char) a) eqn:F; [discriminate|]. cbn in H. subst b. unfold lower in E. apply map_eq_app in E as (s1 & s2 & -> & E1 & E2).
    destruct s2 as [|c ext]; [discriminate|]. cbn in E2. injection E2 as C E2. apply (proj1 (lower_chr_fix _ lower_dot c)) in C. subst c.
    exists d, s1, ext. split; [reflexivity|]. split; [exact D|]. split; [intros I; apply N, in_or_app; now left|]. split.
    + subst a. clear -F. induction s1 as [|c s1 IH]; [discriminate|]. cbn in F. destruct (ceq_spec c "."%char) as [->|C].
      * change (lower_chr "."%char) with "."%char in F. rewrite (proj2 (ceq_true _ _) eq_refl) in F. destruct (IH F) as (x & I & X). exists x. split; [now right|exact X].
      * exists c. split; [now left|exact C].
    + apply lower_case. exact E2.
  - intros (d & stem & ext & -> & D & N & S & X). destruct (svg_letters ext X) as [X1 X2]. unfold lower. rewrite map_app. change (map lower_chr d) with (lower d).
    change (map lower_chr (stem ++ T "." ++ ext)) with (lower (stem ++ "."%char :: ext)). rewrite basename_dir; [|now apply lower_dir|].
    + rewrite splitext_stem by assumption. cbn [snd]. apply lower_case in X. rewrite X. reflexivity.
    + apply lower_notin; [apply lower_slash|]. intros I. apply in_app_or in I as [I|[I|I]]; [now apply N|discriminate|now apply X1].
Qed.
Lemma not_svg_name f : ~ svg_name f <-> SessionModel.is_svg f = false.
Proof. rewrite <- is_svg_name. now destruct (SessionModel.is_svg f). Qed.
