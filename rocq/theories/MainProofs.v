(** Lemmas about gerber-render. *)
From Coq Require Import Permutation Sorted.
From Verif Require Import PyBase QcLib ThemeModel ThemeSpec ThemeProofs LayersSpec LayersProofs DirSpec DirProofs MainModel MainSpec.
Open Scope list_scope.
Open Scope Qc_scope.

Lemma from_dir read dir files ks : board_files read files ks -> exists n, from_directory read dir None files = Ok (pcb (layers_of dir 0 ks), n).
Proof. intros H. unfold from_directory. rewrite (load_ok read dir files ks H 0). cbn [bind fst snd]. eexists. reflexivity. Qed.
Lemma themes_given name th : lookup name themes = Some th -> NoDup (map fst (given th)).
Proof.
  intros H. apply lookup_in in H. unfold themes in H. repeat (destruct H as [H|H]; [injection H as _ <-; cbn; repeat (constructor; [cbn; intuition discriminate|]); constructor|]). contradiction.
Qed.

Section Main.
Variable P scale : Type.
Variable read : text -> res camkind.
Variable scale_for : list layer -> res scale.
Variable drawing : scale -> layer -> settings -> layer -> res (P -> Qc).
Notation draw ls sc := (fun s l => drawing sc (hd l ls) s l).
Notation image_of := (image_of P scale scale_for drawing).
Notation count := (ThemeSpec.count layer l_class).
Lemma pictures (ls all : list layer) sc : (forall l s, In l ls -> exists m, drawing sc (hd l all) s l = Ok m) -> forall ss, List.length ss = List.length ls ->
  exists ms, Forall2 (fun x m => draw all sc (fst x) (snd x) = Ok m) (combine ss ls) ms.
Proof.
  induction ls as [|l ls IH]; intros H [|s ss] L; try discriminate; [exists []; constructor|].
  destruct (IH (fun l s I => H l s (or_intror I)) ss) as (ms & F); [cbn in L; lia|]. destruct (H l s (or_introl eq_refl)) as (m & M). exists (m :: ms). cbn [combine]. now constructor.
Qed.
Lemma image_ok used name th ls sc : lookup name themes = Some th -> scale_for ls = Ok sc -> ls <> [] -> used name = 0%nat ->
  (count ls <= List.length (internals th))%nat -> (forall l s, In l ls -> exists m, drawing sc (hd l ls) s l = Ok m) ->
  exists im, image_of used name ls = Ok ((fun n => if String.eqb n name then count ls else used n), im) /\ shows_board (draw ls sc) th ls im.
Proof.
  intros TH SC NE U C D. unfold MainModel.image_of. rewrite TH, SC, U. cbn [bind].
  destruct (C121_lemma P layer l_class (draw ls sc) th 0 ls (themes_given _ _ TH) NE C) as (bg & ss & B & L & K & M).
  destruct (pictures ls ls sc D ss L) as (ms & F). destruct (M ms F) as (im & E & X). rewrite E. cbn [bind fst snd]. exists im. split; [reflexivity|].
  exists bg. split; [exact B|]. exists ss, ms. split; [exact L|]. split; [intros i s I; now apply K|]. split; [exact F|exact X].
Qed.

(** ** The layers of the images *)
Lemma outline_find L : match outline_layer (pcb L) with Some o => In o L /\ outline o | None => forall o, In o L -> ~ outline o end.
Proof.
  unfold outline_layer. destruct (find _ (pcb L)) as [o|] eqn:F.
  - apply find_some in F as [I E]. apply in_pcb in I as [I _]. apply String.eqb_eq in E. now split.
  - intros o I O. assert (J : In o (pcb L)) by (apply in_pcb; split; [exact I|]; unfold known; rewrite O; reflexivity).
    apply (find_none _ _ F) in J. rewrite O in J. discriminate.
Qed.
Lemma drills_those L : those is_drill L (drill_layers (pcb L)).
Proof.
  intros p H. unfold drill_layers, of_class. rewrite (filter_ext p (fun x => String.eqb (l_class x) "drill")).
  - apply class_filter_pcb. intros x E. apply String.eqb_eq in E. unfold known. now rewrite E.
  - intros x. specialize (H x). unfold is_drill in H. destruct (String.eqb_spec (l_class x) "drill"), (p x); intuition congruence.
Qed.
Lemma jobs_ok out name L : (exists x, In x L /\ copper_mask_silk TopSide (l_class x)) -> (exists x, In x L /\ copper_mask_silk BottomSide (l_class x)) ->
  exists top bottom copper, board_jobs out name (pcb L) = Ok [(out ++ T ".top.png", name, top); (out ++ T ".bottom.png", name, bottom); (out ++ T ".copper.png", "Transparent Multilayer"%string, copper)] /\
    side_view TopSide L top /\ side_view BottomSide L bottom /\ copper_view L copper.
Proof.
  intros HT HB. destruct (C47_lemma L TopSide HT) as (t & T1 & T2 & x & r & d & -> & T3 & T4 & T5). destruct (C47_lemma L BottomSide HB) as (b & B1 & B2 & x' & r' & d' & -> & B3 & B4 & B5).
  cbn [side_layers] in T1, B1. unfold board_jobs. rewrite T1, B1. cbn [bind]. pose proof (outline_find L) as O. destruct (C69_lemma L) as (C1 & C2 & _).
  assert (C3 : those copper L (copper_layers (pcb L))) by (intros p H; now apply C1).
  destruct (outline_layer (pcb L)) as [o|]; eexists _, _, _; (split; [reflexivity|]); (split; [|split]).
  - exists x, r, d. split; [left; exists o; tauto|auto].
  - exists x', r', d'. split; [left; exists o; tauto|auto].
  - exists (copper_layers (pcb L)), (drill_layers (pcb L)). split; [left; exists o; tauto|]. split; [exact C3|]. split; [exact C2|]. split; [intros _; apply drills_those|].
    intros N. destruct O as [O1 O2]. now elim (N o O1).
  - exists x, r, d. split; [right; auto|auto].
  - exists x', r', d'. split; [right; auto|auto].
  - exists (copper_layers (pcb L)), []. rewrite app_nil_r. split; [right; auto|]. split; [exact C3|]. split; [exact C2|]. split; [|reflexivity].
    intros (o & I & J). now elim (O o I).
Qed.

(** ** Which layers, and how many internal ones *)
Lemma those_in (Q : layer -> Prop) (dec : forall x, {Q x} + {~ Q x}) L l x : those Q L l -> (In x l <-> In x L /\ Q x).
Proof.
  intros H. set (p := fun x => if dec x then true else false). assert (Pp : forall x, p x = true <-> Q x) by (intros y; unfold p; destruct (dec y); intuition discriminate).
  specialize (H p Pp). rewrite <- (Pp x). rewrite <- filter_In. split; intros I; [eapply Permutation_in; eauto|eapply Permutation_in; [apply Permutation_sym|]; eauto].
Qed.
Lemma side_dec s x : {copper_mask_silk s (l_class x) \/ drills_to s x} + {~ (copper_mask_silk s (l_class x) \/ drills_to s x)}.
Proof.
  assert (D : forall a b : string, {a = b} + {a <> b}) by apply string_dec.
  assert (D1 : {copper_mask_silk s (l_class x)} + {~ copper_mask_silk s (l_class x)}).
  { destruct s; unfold copper_mask_silk; [destruct (D (l_class x) "top"%string), (D (l_class x) "topmask"%string), (D (l_class x) "topsilk"%string); tauto|destruct (D (l_class x) "bottom"%string), (D (l_class x) "bottommask"%string), (D (l_class x) "bottomsilk"%string); tauto]. }
  assert (D2 : {drills_to s x} + {~ drills_to s x}).
  { unfold drills_to. destruct (D (l_class x) "drill"%string) as [E|E]; [|right; tauto]. destruct (in_dec D (side_name s) (l_sides x)); [left|right]; tauto. }
  destruct D1, D2; tauto.
Qed.
Lemma copper_dec x : {copper x} + {~ copper x}.
Proof. unfold copper. destruct (string_dec (l_class x) "top"), (string_dec (l_class x) "bottom"), (string_dec (l_class x) "internal"); tauto. Qed.
Lemma drill_dec x : {is_drill x} + {~ is_drill x}.
Proof. apply string_dec. Qed.
Lemma outline_first_in L l rest x : outline_first L l rest -> In x l -> In x rest \/ (In x L /\ outline x).
Proof. intros [(o & I & O & ->)|[_ ->]] H; [destruct H as [<-|H]; auto|auto]. Qed.
Lemma count_zero ls : (forall x, In x ls -> l_class x <> "internal"%string) -> count ls = 0%nat.
Proof.
  intros H. unfold ThemeSpec.count. induction ls as [|x ls IH]; [reflexivity|]. cbn [filter]. unfold is_internal at 1. destruct (String.eqb_spec (l_class x) "internal") as [E|E]; [now elim (H x (or_introl eq_refl))|].
  apply IH. intros y I. apply H. now right.
Qed.
Lemma side_view_in s L l x : side_view s L l -> In x l -> In x L /\ l_class x <> "internal"%string.
Proof.
  intros (y & r & d & O & Th & _) I. destruct (outline_first_in _ _ _ _ O I) as [J|[J1 J2]].
  - apply (those_in _ (side_dec s)) with (1 := Th) in J as [J1 J2]. split; [exact J1|]. destruct J2 as [J2|[J2 _]]; [|congruence]. destruct s; cbn in J2; intuition congruence.
  - split; [exact J1|]. unfold outline in J2. congruence.
Qed.
Lemma side_view_nil s L : ~ side_view s L [].
Proof. intros (y & r & d & [(o & _ & _ & E)|[_ E]] & _); discriminate. Qed.
Lemma copper_view_in L l x : copper_view L l -> In x l -> In x L.
Proof.
  intros (c & d & O & Th & _ & D1 & D2) I. destruct (outline_first_in _ _ _ _ O I) as [J|[J1 J2]]; [|exact J1]. apply in_app_or in J as [J|J].
  - now apply (those_in _ copper_dec) with (1 := Th) in J as [J _].
  - destruct O as [(o & O1 & O2 & _)|[N _]].
    + now apply (those_in _ drill_dec) with (1 := D1 (ex_intro _ o (conj O1 O2))) in J as [J _].
    + rewrite (D2 N) in J. contradiction.
Qed.
Lemma count_app a b : count (a ++ b) = (count a + count b)%nat.
Proof. unfold ThemeSpec.count. now rewrite filter_app, app_length. Qed.
Lemma filter_filter {A} (f g : A -> bool) l : filter f (filter g l) = filter (fun x => f x && g x) l.
Proof. induction l as [|x l IH]; [reflexivity|]. cbn. destruct (g x) eqn:G, (f x) eqn:F; cbn; rewrite ?F, ?G, ?IH; cbn; rewrite ?F; auto. Qed.
Lemma copper_count L l : copper_view L l -> count l = number_of "internal" L.
Proof.
  intros (c & d & O & Th & _ & D1 & D2).
  assert (C : count c = number_of "internal" L).
  { set (p := fun x => if copper_dec x then true else false). assert (Pp : forall x, p x = true <-> copper x) by (intros y; unfold p; destruct (copper_dec y); intuition discriminate).
    specialize (Th p Pp). unfold ThemeSpec.count, number_of. assert (Q : Permutation (filter (fun l => is_internal (l_class l)) c) (filter (fun l => is_internal (l_class l)) (filter p L))).
    { clear - Th. induction Th; cbn; auto; try (destruct (is_internal _); auto; fail).
      - destruct (is_internal (l_class x)), (is_internal (l_class y)); auto; constructor.
      - eapply Permutation_trans; eauto. }
    rewrite (Permutation_length Q), filter_filter. f_equal. apply filter_ext. intros x. unfold is_internal. destruct (String.eqb_spec (l_class x) "internal") as [E|E]; [|reflexivity].
    cbn. apply Pp. unfold copper. auto. }
  assert (D : count d = 0%nat).
  { apply count_zero. intros x I. destruct O as [(o & O1 & O2 & _)|[N _]].
    - apply (those_in _ drill_dec) with (1 := D1 (ex_intro _ o (conj O1 O2))) in I as [_ I]. unfold is_drill in I. congruence.
    - rewrite (D2 N) in I. contradiction. }
  destruct O as [(o & O1 & O2 & ->)|[N ->]].
  - change (o :: c ++ d) with ([o] ++ c ++ d). rewrite !count_app, C, D, (count_zero [o]); [lia|]. intros x [<-|[]]. unfold outline in O2. congruence.
  - rewrite count_app, C, D. lia.
Qed.

(** ** A directory *)
Definition can_draw (L : list layer) : Prop := forall sc f s l, In f L -> In l L -> exists m, drawing sc f s l = Ok m.
Definition can_scale (L : list layer) : Prop := forall ls, ls <> [] -> incl ls L -> exists sc, scale_for ls = Ok sc.
Lemma can_draw_hd L ls sc : can_draw L -> incl ls L -> forall l s, In l ls -> exists m, drawing sc (hd l ls) s l = Ok m.
Proof. intros D I l s J. apply D; [|now apply I]. destruct ls as [|x ls]; [contradiction|]. apply I. now left. Qed.
Definition sides_done (name : string) (th : theme) (L : list layer) (out : text) (used : string -> nat) (top bottom : list layer) (i1 i2 : image P) : Prop :=
  exists s1 s2 used', (forall n, used' n = 0%nat) /\ scale_for top = Ok s1 /\ scale_for bottom = Ok s2 /\
    shows_board (draw top s1) th top i1 /\ shows_board (draw bottom s2) th bottom i2 /\
    forall jobs, write_images P scale scale_for drawing used ((out ++ T ".top.png", name, top) :: (out ++ T ".bottom.png", name, bottom) :: jobs) =
      let (w, r) := write_images P scale scale_for drawing used' jobs in ((out ++ T ".top.png", i1) :: (out ++ T ".bottom.png", i2) :: w, r).
Lemma sides_ok name th L out top bottom : lookup name themes = Some th -> can_draw L -> can_scale L -> side_view TopSide L top -> side_view BottomSide L bottom ->
  exists i1 i2, sides_done name th L out (fun _ => 0%nat) top bottom i1 i2.
Proof.
  intros TH D S V1 V2.
  assert (N1 : top <> []) by (intros ->; exact (side_view_nil _ _ V1)). assert (N2 : bottom <> []) by (intros ->; exact (side_view_nil _ _ V2)).
  assert (I1 : incl top L) by (intros x I; now apply (side_view_in _ _ _ _ V1)). assert (I2 : incl bottom L) by (intros x I; now apply (side_view_in _ _ _ _ V2)).
  assert (Z1 : count top = 0%nat) by (apply count_zero; intros x I; now apply (side_view_in _ _ _ _ V1)). assert (Z2 : count bottom = 0%nat) by (apply count_zero; intros x I; now apply (side_view_in _ _ _ _ V2)).
  destruct (S top N1 I1) as (s1 & E1). destruct (S bottom N2 I2) as (s2 & E2).
  destruct (image_ok (fun _ => 0%nat) name th top s1 TH E1 N1 eq_refl ltac:(lia) (can_draw_hd L top s1 D I1)) as (i1 & A1 & B1). rewrite Z1 in A1.
  destruct (image_ok (fun n => if String.eqb n name then 0%nat else 0%nat) name th bottom s2 TH E2 N2 ltac:(cbv beta; now destruct (String.eqb name name)) ltac:(lia) (can_draw_hd L bottom s2 D I2)) as (i2 & A2 & B2). rewrite Z2 in A2.
  exists i1, i2, s1, s2, (fun n => if String.eqb n name then 0%nat else if String.eqb n name then 0%nat else 0%nat). split; [|split; [exact E1|split; [exact E2|split; [exact B1|split; [exact B2|]]]]].
  2:{ intros jobs. cbn [write_images]. rewrite A1, A2. destruct (write_images _ _ _ _ _ jobs). reflexivity. }
  intros n. cbv beta. now destruct (String.eqb n name).
Qed.
Lemma main_dir_jobs out name dir files ks : board_files read files ks ->
  main_directory P scale read scale_for drawing out name dir files =
  match board_jobs out name (pcb (layers_of dir 0 ks)) with Ok jobs => write_images P scale scale_for drawing (fun _ => 0%nat) jobs | Err e => ([], Err e) end.
Proof. intros H. unfold main_directory. destruct (from_dir read dir files ks H) as (n & ->). reflexivity. Qed.
Lemma multilayer : lookup "Transparent Multilayer" themes = Some th_multilayer.
Proof. reflexivity. Qed.
Lemma C131_lemma out name th dir files ks : lookup name themes = Some th -> board_files read files ks ->
  let L := layers_of dir 0 ks in
  (forall s, exists x, In x L /\ copper_mask_silk s (l_class x)) -> (exists x, In x L /\ (copper x \/ outline x)) -> (number_of "internal" L <= 6)%nat ->
  can_draw L -> can_scale L ->
  exists top bottom copper s1 s2 s3 i1 i2 i3,
    main_directory P scale read scale_for drawing out name dir files = ([(out ++ T ".top.png", i1); (out ++ T ".bottom.png", i2); (out ++ T ".copper.png", i3)], Ok tt) /\
    side_view TopSide L top /\ side_view BottomSide L bottom /\ copper_view L copper /\
    scale_for top = Ok s1 /\ scale_for bottom = Ok s2 /\ scale_for copper = Ok s3 /\
    shows_board (draw top s1) th top i1 /\ shows_board (draw bottom s2) th bottom i2 /\ shows_board (draw copper s3) th_multilayer copper i3.
Proof.
  intros TH B L HS HC N D S. destruct (jobs_ok out name L (HS TopSide) (HS BottomSide)) as (top & bottom & copper & J & V1 & V2 & V3).
  destruct (sides_ok name th L out top bottom TH D S V1 V2) as (i1 & i2 & s1 & s2 & used' & U & E1 & E2 & B1 & B2 & W).
  assert (N3 : copper <> []).
  { intros ->. destruct HC as (x & I & [C|O]); destruct V3 as (c & d & [(o & _ & _ & Q)|[NO Q]] & Th & _); try discriminate.
    - symmetry in Q. apply app_eq_nil in Q as [-> ->]. now apply (proj2 (those_in _ copper_dec L [] x Th)).
    - now elim (NO x I). }
  assert (I3 : incl copper L) by (intros x; now apply copper_view_in). destruct (S copper N3 I3) as (s3 & E3).
  destruct (image_ok used' "Transparent Multilayer" th_multilayer copper s3 multilayer E3 N3 (U _) ltac:(rewrite (copper_count L copper V3); exact N) (can_draw_hd L copper s3 D I3)) as (i3 & A3 & B3).
  exists top, bottom, copper, s1, s2, s3, i1, i2, i3. split; [|repeat (split; [assumption|]); assumption].
  rewrite (main_dir_jobs out name dir files ks B). fold L. rewrite J, W. cbn [write_images]. rewrite A3. reflexivity.
Qed.
Lemma side_missing s L : (forall x, In x L -> ~ copper_mask_silk s (l_class x)) -> side_layers s (pcb L) = Err IndexError.
Proof.
  intros H. destruct s; cbn [side_layers]; unfold top_layers, bottom_layers, interleave.
  - destruct (filter _ (rev (pcb L))) as [|x r] eqn:F; [reflexivity|]. exfalso.
    assert (I : In x (filter (class_in ["topsilk"; "topmask"; "top"]%string) (rev (pcb L)))) by (rewrite F; now left). apply filter_In in I as [I1 I2]. apply in_rev, in_pcb in I1 as [I1 _].
    apply (H x I1). unfold class_in in I2. cbn in I2. cbn. repeat (apply orb_prop in I2 as [I2|I2]; [apply String.eqb_eq in I2; auto|]). discriminate.
  - destruct (filter _ (pcb L)) as [|x r] eqn:F; [reflexivity|]. exfalso.
    assert (I : In x (filter (class_in ["bottomsilk"; "bottommask"; "bottom"]%string) (pcb L))) by (rewrite F; now left). apply filter_In in I as [I1 I2]. apply in_pcb in I1 as [I1 _].
    apply (H x I1). unfold class_in in I2. cbn in I2. cbn. repeat (apply orb_prop in I2 as [I2|I2]; [apply String.eqb_eq in I2; auto|]). discriminate.
Qed.
Lemma C131_side_lemma out name dir files ks s : board_files read files ks ->
  (forall x, In x (layers_of dir 0 ks) -> ~ copper_mask_silk s (l_class x)) ->
  main_directory P scale read scale_for drawing out name dir files = ([], Err IndexError).
Proof.
  intros B H. rewrite (main_dir_jobs out name dir files ks B). pose proof (side_missing s _ H) as M. unfold board_jobs. destruct s; cbn [side_layers] in M.
  - now rewrite M.
  - unfold top_layers at 1, interleave. destruct (filter _ (rev _)); [reflexivity|]. cbn [bind]. now rewrite M.
Qed.
Lemma C131_internal_lemma out name th dir files ks : lookup name themes = Some th -> board_files read files ks ->
  let L := layers_of dir 0 ks in
  (forall s, exists x, In x L /\ copper_mask_silk s (l_class x)) -> (6 < number_of "internal" L)%nat -> 
  (forall sc f s l, exists m, drawing sc f s l = Ok m) -> can_scale L ->
  exists i1 i2, main_directory P scale read scale_for drawing out name dir files = ([(out ++ T ".top.png", i1); (out ++ T ".bottom.png", i2)], Err StopIteration).
Proof.
  intros TH B L HS N D S. destruct (jobs_ok out name L (HS TopSide) (HS BottomSide)) as (top & bottom & copper & J & V1 & V2 & V3).
  assert (D' : can_draw L) by (intros sc f s l _ _; apply D).
  destruct (sides_ok name th L out top bottom TH D' S V1 V2) as (i1 & i2 & s1 & s2 & used' & U & E1 & E2 & B1 & B2 & W).
  assert (N3 : copper <> []) by (intros ->; pose proof (copper_count _ _ V3) as C; cbn in C; lia).
  assert (I3 : incl copper L) by (intros x; now apply copper_view_in). destruct (S copper N3 I3) as (s3 & E3).
  exists i1, i2. rewrite (main_dir_jobs out name dir files ks B). fold L. rewrite J, W. cbn [write_images]. unfold MainModel.image_of. rewrite multilayer, E3, U. cbn [bind].
  destruct (C121_stop_lemma P layer l_class (draw copper s3) th_multilayer 0 copper (Nat.le_0_l _) ltac:(intros; apply D)) as [_ X].
  rewrite X; [reflexivity|]. rewrite (copper_count _ _ V3). cbn. lia.
Qed.

(** ** Files *)
Variable initial : scale.
Lemma find_settings name th used c : lookup name themes = Some th -> (is_internal c = true -> (used < List.length (internals th))%nat) ->
  exists s, theme_find th used c = Ok ((if is_internal c then S used else used), s) /\
    let v := match s with Some s => s | None => match attribute th_default c with Some (Some s) => s | _ => black end end in
    if is_internal c then nth_error (internals th) used = Some v else ThemeSpec.of_class th c v.
Proof.
  intros TH H. unfold theme_find, is_internal in *. destruct (String.eqb c "internal").
  - destruct (nth_error (internals th) used) as [s|] eqn:E; [|apply nth_error_None in E; specialize (H eq_refl); lia]. exists (Some s). split; [reflexivity|reflexivity].
  - eexists. split; [reflexivity|]. unfold attribute. destruct (lookup c defaults) as [d|] eqn:E.
    + rewrite !kwargs_lookup. destruct (lookup c (given th)) as [[s|]|] eqn:G.
      * cbn. apply class_given; [apply in_fst with (v := d), lookup_in, E|now apply lookup_in].
      * exfalso. apply lookup_in in G. apply lookup_in in TH. unfold themes in TH. repeat (destruct TH as [TH|TH]; [injection TH as _ <-; cbn in G; repeat (destruct G as [G|G]; [discriminate|]); contradiction|]). contradiction.
      * cbn. apply class_default; [now apply lookup_none|now apply lookup_in].
    + cbn. apply class_other. now apply lookup_none.
Qed.
Lemma draw_files_ok name th first : lookup name themes = Some th -> (forall s l, exists m, drawing initial first s l = Ok m) ->
  forall ks used id im l0, Forall (fun x => read (fst x) = Ok (snd x)) ks -> (used + count (file_layers id ks) <= List.length (internals th))%nat ->
  (forall p, mixed (l0 p) (im p)) ->
  exists im' ss ms, draw_files P scale read drawing initial th used (map fst ks) id (Some first) (Some im) = Ok (Some im') /\
    List.length ss = List.length (file_layers id ks) /\ (forall i s, nth_error ss i = Some s -> chosen th used (map l_class (file_layers id ks)) i s) /\
    Forall2 (fun x m => drawing initial first (fst x) (snd x) = Ok m) (combine ss (file_layers id ks)) ms /\
    forall p, mixed (l0 p ++ seen P ss ms p) (im' p).
Proof.
  intros TH D. induction ks as [|[f k] ks IH]; intros used id im l0 R C M.
  { exists im, [], []. split; [reflexivity|]. split; [reflexivity|]. split; [intros [|i] s E; discriminate|]. split; [constructor|]. intros p. cbn. rewrite app_nil_r. apply M. }
  apply Forall_cons_iff in R as [R1 R2]. cbn [fst snd] in R1. cbn [map fst draw_files file_layers]. rewrite R1. cbn [bind]. set (l := from_cam id k f) in *.
  cbn [file_layers] in C. fold l in C. change (l :: file_layers (S id) ks) with ([l] ++ file_layers (S id) ks) in C. rewrite count_app in C.
  assert (CL : count [l] = if is_internal (l_class l) then 1%nat else 0%nat) by (unfold ThemeSpec.count; cbn; now destruct (is_internal (l_class l))).
  rewrite CL in C.
  destruct (find_settings name th used (l_class l) TH) as (s & E & V); [intros I; rewrite I in C; lia|]. rewrite E. cbn [bind fst snd]. cbv zeta in V. set (v := match s with Some s => s | None => _ end) in *.
  unfold render_layer, draw_layer. destruct (D v l) as (m & Dm). rewrite Dm. cbn [bind].
  destruct (IH (if is_internal (l_class l) then S used else used) (S id) (fun p => over (s_color v) (s_alpha v * m p) (im p)) (fun p => l0 p ++ [(s_color v, s_alpha v * m p)]) R2) as (im' & ss & ms & X & L & K & F & Q).
  { destruct (is_internal (l_class l)); lia. }
  { intros p. apply mixed_over, M. }
  exists im', (v :: ss), (m :: ms). split; [exact X|]. split; [cbn [List.length]; lia|]. split; [|split].
  - intros [|i] s' E'; cbn [nth_error] in E'.
    + injection E' as <-. exists (l_class l). split; [reflexivity|]. destruct (is_internal (l_class l)); [|exact V]. cbn. now rewrite Nat.add_0_r.
    + destruct (K i s' E') as (c & E1 & E2). exists c. split; [exact E1|]. destruct (is_internal c) eqn:IC; [|exact E2]. rewrite <- E2. f_equal. unfold internal_before. cbn [map firstn filter].
      destruct (is_internal (l_class l)); cbn [List.length]; lia.
  - cbn [combine]. constructor; assumption.
  - intros p. specialize (Q p). rewrite <- app_assoc in Q. exact Q.
Qed.
Lemma C132_lemma out name th ks : lookup name themes = Some th -> ks <> [] -> Forall (fun x => read (fst x) = Ok (snd x)) ks ->
  (number_of "internal" (file_layers 0 ks) <= List.length (internals th))%nat -> (forall f s l, exists m, drawing initial f s l = Ok m) ->
  exists im bg, main_files P scale read drawing initial out name (map fst ks) = ([(out ++ T ".png", im)], Ok tt) /\ of_background th_default bg /\
    shows (draw (file_layers 0 ks) initial) th bg (file_layers 0 ks) im.
Proof.
  intros TH NE R C D. destruct ks as [|[f k] ks]; [contradiction|]. 
  assert (X := draw_files_ok name th (from_cam 0 k f) TH (D _) ((f, k) :: ks) 0 0 (paint_background P (Some (background th_default))) (fun _ => [(s_color (background th_default), s_alpha (background th_default))]) R C (fun p => mixed_over [] _ _ _ mixed_nil)).
  destruct X as (im & ss & ms & X & L & K & F & Q). exists im, (background th_default). split; [|split].
  - unfold main_files. rewrite TH. match goal with |- context [draw_files _ _ _ _ _ _ _ _ _ None None] => idtac end.
    assert (Y : draw_files P scale read drawing initial th 0 (map fst ((f, k) :: ks)) 0 None None = Ok (Some im)).
    { rewrite <- X. apply Forall_cons_iff in R as [R1 R2]. cbn [fst snd] in R1. cbn [map fst draw_files]. rewrite R1. cbn [bind]. reflexivity. }
    now rewrite Y.
  - apply background_of. constructor.
  - exists ss, ms. split; [exact L|]. split; [exact K|]. split; [|exact Q].
    assert (G : forall x, In x (combine ss (file_layers 0 ((f, k) :: ks))) -> True) by auto.
    clear - F. cbn [file_layers hd] in *. exact F.
Qed.
Lemma C132_error_lemma out name th before f after e : lookup name themes = Some th -> Forall (fun f => exists k, read f = Ok k) before -> read f = Err e ->
  (forall s g l, exists m, drawing initial s g l = Ok m) -> 
  exists e', main_files P scale read drawing initial out name (before ++ f :: after) = ([], Err e') /\ (e' = e \/ e' = StopIteration).
Proof.
  intros TH B R D. unfold main_files. rewrite TH. assert (X : forall used id first im, exists e', draw_files P scale read drawing initial th used (before ++ f :: after) id first im = Err e' /\ (e' = e \/ e' = StopIteration)).
  { induction B as [|g before (k & K) B IH]; intros used id first im; cbn [app draw_files].
    - rewrite R. exists e. auto.
    - rewrite K. cbn [bind]. unfold theme_find. destruct (String.eqb _ _).
      + destruct (nth_error _ _); [|exists StopIteration; auto]. cbn [bind fst snd]. unfold render_layer, draw_layer. match goal with |- context [drawing initial ?a ?b ?c] => destruct (D a b c) as (m & ->) end. cbn [bind]. apply IH.
      + cbn [bind fst snd]. unfold render_layer, draw_layer. match goal with |- context [drawing initial ?a ?b ?c] => destruct (D a b c) as (m & ->) end. cbn [bind]. apply IH. }
  destruct (X 0%nat 0%nat None None) as (e' & -> & Y). eauto.
Qed.
Lemma C131_copper_lemma out name th dir files ks sc : lookup name themes = Some th -> board_files read files ks ->
  let L := layers_of dir 0 ks in
  (forall s, exists x, In x L /\ copper_mask_silk s (l_class x)) -> (forall x, In x L -> ~ copper x /\ ~ outline x) -> scale_for [] = Ok sc ->
  can_draw L -> can_scale L ->
  exists i1 i2, main_directory P scale read scale_for drawing out name dir files = ([(out ++ T ".top.png", i1); (out ++ T ".bottom.png", i2)], Err AttributeError).
Proof.
  intros TH B L HS N E D S. destruct (jobs_ok out name L (HS TopSide) (HS BottomSide)) as (top & bottom & copper & J & V1 & V2 & V3).
  destruct (sides_ok name th L out top bottom TH D S V1 V2) as (i1 & i2 & s1 & s2 & used' & U & E1 & E2 & B1 & B2 & W).
  assert (C : copper = []).
  { destruct V3 as (c & d & [(o & O1 & O2 & _)|[NO Q]] & Th & _ & _ & X); [now elim (proj2 (N o O1))|]. rewrite (X NO), app_nil_r in Q. subst c.
    destruct copper as [|x r]; [reflexivity|]. destruct (proj1 (those_in _ copper_dec L (x :: r) x Th) (or_introl eq_refl)) as [I1 I2]. now elim (proj1 (N x I1)). }
  subst copper. exists i1, i2. rewrite (main_dir_jobs out name dir files ks B). fold L. rewrite J, W. cbn [write_images]. unfold MainModel.image_of. rewrite multilayer, E. reflexivity.
Qed.
Lemma C131_holes_lemma out name th dir files ks : lookup name themes = Some th -> board_files read files ks ->
  let L := layers_of dir 0 ks in
  (forall s, exists x, In x L /\ copper_mask_silk s (l_class x)) -> (exists x, In x L /\ copper x) -> (number_of "internal" L <= 6)%nat ->
  (forall x, In x L -> ~ outline x) -> can_draw L -> can_scale L ->
  exists i1 i2 i3 cs s3,
    main_directory P scale read scale_for drawing out name dir files = ([(out ++ T ".top.png", i1); (out ++ T ".bottom.png", i2); (out ++ T ".copper.png", i3)], Ok tt) /\
    those copper L cs /\ shows_board (draw cs s3) th_multilayer cs i3.
Proof.
  intros TH B L HS (x & X1 & X2) N O D S.
  destruct (C131_lemma out name th dir files ks TH B HS (ex_intro _ x (conj X1 (or_introl X2))) N D S) as (top & bottom & cs & s1 & s2 & s3 & i1 & i2 & i3 & E & _ & _ & V & _ & _ & _ & _ & _ & H).
  exists i1, i2, i3, cs, s3. split; [exact E|]. split; [|exact H].
  destruct V as (c & d & [(o & O1 & O2 & _)|[NO Q]] & Th & _ & _ & Y); [now elim (O o O1)|]. rewrite (Y NO), app_nil_r in Q. now subst c.
Qed.
Lemma C132_stop_lemma out name th ks : lookup name themes = Some th -> Forall (fun x => read (fst x) = Ok (snd x)) ks ->
  (List.length (internals th) < number_of "internal" (file_layers 0 ks))%nat -> (forall f s l, exists m, drawing initial f s l = Ok m) ->
  main_files P scale read drawing initial out name (map fst ks) = ([], Err StopIteration).
Proof.
  intros TH R C D. unfold main_files. rewrite TH.
  assert (X : forall used id first im, (used <= List.length (internals th))%nat -> (List.length (internals th) < used + count (file_layers id ks))%nat ->
    draw_files P scale read drawing initial th used (map fst ks) id first im = Err StopIteration).
  { clear C. induction R as [|[f k] ks R1 R IH]; intros used id first im U C; [cbn in C; lia|]. cbn [fst snd] in R1. cbn [map fst draw_files]. rewrite R1. cbn [bind].
    cbn [file_layers] in C. set (l := from_cam id k f) in *. change (l :: file_layers (S id) ks) with ([l] ++ file_layers (S id) ks) in C. rewrite count_app in C.
    assert (CL : count [l] = if is_internal (l_class l) then 1%nat else 0%nat) by (unfold ThemeSpec.count; cbn; now destruct (is_internal (l_class l))).
    rewrite CL in C. unfold is_internal in C. unfold theme_find. destruct (String.eqb (l_class l) "internal").
    - destruct (nth_error (internals th) used) as [s|] eqn:E; [|reflexivity]. cbn [bind fst snd]. unfold render_layer, draw_layer. match goal with |- context [drawing initial ?a ?b ?c] => destruct (D a b c) as (m & ->) end. cbn [bind].
      assert (nth_error (internals th) used <> None) by congruence. apply nth_error_Some in H. apply IH; lia.
    - cbn [bind fst snd]. unfold render_layer, draw_layer. match goal with |- context [drawing initial ?a ?b ?c] => destruct (D a b c) as (m & ->) end. cbn [bind]. apply IH; lia. }
  rewrite (X 0%nat 0%nat None None); [reflexivity|lia|exact C].
Qed.
End Main.
Lemma in_themes name th : In (name, th) themes -> lookup name themes = Some th.
Proof. intros H. unfold themes in H. repeat (destruct H as [H|H]; [injection H as <- <-; reflexivity|]). contradiction. Qed.
