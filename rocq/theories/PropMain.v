(** Properties of the images that gerber-render writes. *)
From Coq Require Import Permutation Sorted.
From Verif Require Import PyBase QcLib ThemeModel ThemeSpec ThemeProofs LayersSpec LayersProofs DirModel DirSpec DirProofs MainModel MainSpec MainProofs.
Open Scope list_scope.
Open Scope Qc_scope.

(** ** C131 *)
(** A directory with copper, mask or silk on both sides, some copper or an outline and at most six internal layers:
    an image of each side with the given theme, and one of the copper. *)
Theorem C131_views_partial : forall P scale read scale_for (drawing : scale -> layer -> settings -> layer -> res (P -> Qc)) out name th dir files ks,
  In (name, th) themes -> board_files read files ks ->
  let L := layers_of dir 0 ks in
  (forall s, exists x, In x L /\ copper_mask_silk s (l_class x)) -> (exists x, In x L /\ (copper x \/ outline x)) -> (number_of "internal" L <= 6)%nat ->
  (forall sc f s l, In f L -> In l L -> exists m, drawing sc f s l = Ok m) -> (forall ls, ls <> [] -> incl ls L -> exists sc, scale_for ls = Ok sc) ->
  exists top bottom copper s1 s2 s3 i1 i2 i3,
    main_directory P scale read scale_for drawing out name dir files = ([(out ++ T ".top.png", i1); (out ++ T ".bottom.png", i2); (out ++ T ".copper.png", i3)], Ok tt) /\
    side_view TopSide L top /\ side_view BottomSide L bottom /\ copper_view L copper /\
    scale_for top = Ok s1 /\ scale_for bottom = Ok s2 /\ scale_for copper = Ok s3 /\
    shows_board (fun s l => drawing s1 (hd l top) s l) th top i1 /\ shows_board (fun s l => drawing s2 (hd l bottom) s l) th bottom i2 /\
    shows_board (fun s l => drawing s3 (hd l copper) s l) th_multilayer copper i3.
Proof. intros P scale read scale_for drawing out name th dir files ks H. exact (C131_lemma P scale read scale_for drawing out name th dir files ks (in_themes _ _ H)). Qed.
Print Assumptions C131_views_partial.
(** A board of a picture of one point, which every layer of some class covers. *)
Definition sample_files : list text := map T ["amp.gtl"; "amp.gbl"; "amp.drl"; "amp.g1"; "amp.gts"]%string.
Definition with_outline : list text := sample_files ++ [T "amp.gko"].
Definition sample_read (f : text) : res camkind := if teq f (T "amp.drl") then Ok CamExcellon else Ok CamGerber.
Definition kinds (files : list text) : list (text * camkind) := map (fun f => (f, if teq f (T "amp.drl") then CamExcellon else CamGerber)) files.
Definition only (c : string) (sc : unit) (f : layer) (s : settings) (l : layer) : res (unit -> Qc) := Ok (fun _ => if String.eqb (l_class l) c then 1 else 0).
Definition any_scale (ls : list layer) : res unit := Ok tt.
Example C131_ex_classes : map l_class (layers_of (T "/fab") 0 (kinds with_outline)) = ["top"; "bottom"; "drill"; "internal"; "topmask"; "outline"]%string.
Proof. vm_compute. reflexivity. Qed.
Lemma sample_board fs : Forall (fun f => ~ ignored f) fs -> board_files sample_read fs (kinds fs).
Proof. induction 1 as [|f fs H F IH]; [constructor|]. cbn [kinds map]. apply files_loaded; auto. unfold sample_read. now destruct (teq f (T "amp.drl")). Qed.
Lemma not_ignored f c r : f = c :: r -> c <> "."%char -> f <> T "Thumbs.db" -> f <> T "ethumbs.db" -> ~ ignored f.
Proof. intros E N N1 N2 [(q & H)|[H|H]]; congruence. Qed.
Ltac NI := repeat (apply Forall_cons; [eapply not_ignored; [reflexivity|discriminate|discriminate|discriminate]|]); constructor.
Example C131_ex : let L := layers_of (T "/fab") 0 (kinds with_outline) in
  In ("OSH Park"%string, th_osh_park) themes /\ board_files sample_read with_outline (kinds with_outline) /\
  (forall s, exists x, In x L /\ copper_mask_silk s (l_class x)) /\ (exists x, In x L /\ (copper x \/ outline x)) /\ (number_of "internal" L <= 6)%nat /\
  (forall c sc f s l, exists m, only c sc f s l = Ok m) /\ (forall ls, ls <> [] -> exists sc, any_scale ls = Ok sc).
Proof.
  cbv zeta. split; [right; now left|]. split; [apply sample_board; NI|]. split; [intros []; eexists; [split; [left; reflexivity|vm_compute; auto]|split; [right; left; reflexivity|vm_compute; auto]]|]. 
  split; [eexists; split; [left; reflexivity|left; vm_compute; auto]|]. split; [vm_compute; repeat constructor|]. split; [intros; eexists; reflexivity|].
  intros ls _. exists tt. reflexivity.
Qed.
(** The holes are seen in the image of the copper, in the colour for holes. *)
Definition copper_image (files : list text) (c : string) : option (Q * Q) :=
  match main_directory unit unit sample_read any_scale (only c) (T "out") "OSH Park" (T "/fab") files with
  | ([_; _; (_, im)], Ok _) => Some (this (red (fst (im tt))), this (snd (im tt)))
  | _ => None
  end.
Example C131_ex_names : map fst (fst (main_directory unit unit sample_read any_scale (only "top") (T "out") "OSH Park" (T "/fab") with_outline)) = map T ["out.top.png"; "out.bottom.png"; "out.copper.png"]%string.
Proof. vm_compute. reflexivity. Qed.
(** The full statement is false.  Boards with nothing on one side have no image at all: *)
Theorem C131_side_refuted : forall P scale read scale_for (drawing : scale -> layer -> settings -> layer -> res (P -> Qc)) out name dir files ks s,
  board_files read files ks -> (forall x, In x (layers_of dir 0 ks) -> ~ copper_mask_silk s (l_class x)) ->
  main_directory P scale read scale_for drawing out name dir files = ([], Err IndexError).
Proof. exact C131_side_lemma. Qed.
Print Assumptions C131_side_refuted.
Example C131_side_ex : let files := map T ["amp.gtl"; "amp.gts"; "amp.drl"; "amp.gko"]%string in
  board_files sample_read files (kinds files) /\ (forall x, In x (layers_of (T "/fab") 0 (kinds files)) -> ~ copper_mask_silk BottomSide (l_class x)).
Proof.
  cbv zeta. split; [apply sample_board; NI|]. intros x I. vm_compute in I. repeat (destruct I as [<-|I]; [cbn; intros [J|[J|J]]; discriminate|]). contradiction.
Qed.
(** With more than six internal layers the image of the copper is missing: *)
Theorem C131_internal_refuted : forall P scale read scale_for (drawing : scale -> layer -> settings -> layer -> res (P -> Qc)) out name th dir files ks,
  In (name, th) themes -> board_files read files ks ->
  let L := layers_of dir 0 ks in
  (forall s, exists x, In x L /\ copper_mask_silk s (l_class x)) -> (6 < number_of "internal" L)%nat ->
  (forall sc f s l, exists m, drawing sc f s l = Ok m) -> (forall ls, ls <> [] -> incl ls L -> exists sc, scale_for ls = Ok sc) ->
  exists i1 i2, main_directory P scale read scale_for drawing out name dir files = ([(out ++ T ".top.png", i1); (out ++ T ".bottom.png", i2)], Err StopIteration).
Proof. intros P scale read scale_for drawing out name th dir files ks H. exact (C131_internal_lemma P scale read scale_for drawing out name th dir files ks (in_themes _ _ H)). Qed.
Print Assumptions C131_internal_refuted.
Definition many_files : list text := map T ["amp.gtl"; "amp.gbl"; "amp.g1"; "amp.g2"; "amp.g3"; "amp.g4"; "amp.g1"; "amp.g2"; "amp.g3"]%string.
Example C131_internal_ex : board_files sample_read many_files (kinds many_files) /\ number_of "internal" (layers_of (T "/fab") 0 (kinds many_files)) = 7%nat /\
  (forall s, exists x, In x (layers_of (T "/fab") 0 (kinds many_files)) /\ copper_mask_silk s (l_class x)).
Proof. split; [apply sample_board; NI|]. split; [vm_compute; reflexivity|]. intros []; eexists; [split; [left; reflexivity|vm_compute; auto]|split; [right; left; reflexivity|vm_compute; auto]]. Qed.
(** ... and also without copper and outline, after the images of the sides: *)
Theorem C131_copper_refuted : forall P scale read scale_for (drawing : scale -> layer -> settings -> layer -> res (P -> Qc)) out name th dir files ks sc,
  In (name, th) themes -> board_files read files ks ->
  let L := layers_of dir 0 ks in
  (forall s, exists x, In x L /\ copper_mask_silk s (l_class x)) -> (forall x, In x L -> ~ copper x /\ ~ outline x) -> scale_for [] = Ok sc ->
  (forall sc f s l, In f L -> In l L -> exists m, drawing sc f s l = Ok m) -> (forall ls, ls <> [] -> incl ls L -> exists sc, scale_for ls = Ok sc) ->
  exists i1 i2, main_directory P scale read scale_for drawing out name dir files = ([(out ++ T ".top.png", i1); (out ++ T ".bottom.png", i2)], Err AttributeError).
Proof. intros P scale read scale_for drawing out name th dir files ks sc H. exact (C131_copper_lemma P scale read scale_for drawing out name th dir files ks sc (in_themes _ _ H)). Qed.
Print Assumptions C131_copper_refuted.
Example C131_copper_ex : let files := map T ["amp.gts"; "amp.gbs"; "amp.drl"]%string in
  board_files sample_read files (kinds files) /\ (forall x, In x (layers_of (T "/fab") 0 (kinds files)) -> ~ copper x /\ ~ outline x) /\
  (forall s, exists x, In x (layers_of (T "/fab") 0 (kinds files)) /\ copper_mask_silk s (l_class x)).
Proof.
  cbv zeta. split; [apply sample_board; NI|]. split; [|intros []; eexists; [split; [left; reflexivity|vm_compute; auto]|split; [right; left; reflexivity|vm_compute; auto]]].
  intros x I. vm_compute in I. repeat (destruct I as [<-|I]; [split; [intros [J|[J|J]]|intros J]; discriminate|]). contradiction.
Qed.
(** The holes are missing in the image of the copper when there is no outline: it shows the copper only. *)
Theorem C131_holes_refuted : forall P scale read scale_for (drawing : scale -> layer -> settings -> layer -> res (P -> Qc)) out name th dir files ks,
  In (name, th) themes -> board_files read files ks ->
  let L := layers_of dir 0 ks in
  (forall s, exists x, In x L /\ copper_mask_silk s (l_class x)) -> (exists x, In x L /\ copper x) -> (number_of "internal" L <= 6)%nat ->
  (forall x, In x L -> ~ outline x) ->
  (forall sc f s l, In f L -> In l L -> exists m, drawing sc f s l = Ok m) -> (forall ls, ls <> [] -> incl ls L -> exists sc, scale_for ls = Ok sc) ->
  exists i1 i2 i3 cs s3,
    main_directory P scale read scale_for drawing out name dir files = ([(out ++ T ".top.png", i1); (out ++ T ".bottom.png", i2); (out ++ T ".copper.png", i3)], Ok tt) /\
    those copper L cs /\ shows_board (fun s l => drawing s3 (hd l cs) s l) th_multilayer cs i3.
Proof. intros P scale read scale_for drawing out name th dir files ks H. exact (C131_holes_lemma P scale read scale_for drawing out name th dir files ks (in_themes _ _ H)). Qed.
Print Assumptions C131_holes_refuted.
Theorem C131_hole_refuted : copper_image with_outline "drill" <> None /\ copper_image sample_files "drill" <> None /\ copper_image with_outline "drill" <> copper_image sample_files "drill" /\
  copper_image sample_files "drill" = copper_image sample_files "none".
Proof. vm_compute. split; [discriminate|]. split; [discriminate|]. split; [discriminate|reflexivity]. Qed.
Print Assumptions C131_hole_refuted.

(** ** C132 *)
(** Files that can all be read, with at most as many internal layers as the theme has settings for: one image of the
    files in their order, with the settings of the theme, on the background of the default theme. *)
Theorem C132_files_partial : forall P scale read (drawing : scale -> layer -> settings -> layer -> res (P -> Qc)) initial out name th ks,
  In (name, th) themes -> ks <> [] -> Forall (fun x => read (fst x) = Ok (snd x)) ks ->
  (number_of "internal" (file_layers 0 ks) <= List.length (internals th))%nat -> (forall f s l, exists m, drawing initial f s l = Ok m) ->
  exists im bg, main_files P scale read drawing initial out name (map fst ks) = ([(out ++ T ".png", im)], Ok tt) /\ of_background th_default bg /\
    shows (fun s l => drawing initial (hd l (file_layers 0 ks)) s l) th bg (file_layers 0 ks) im.
Proof. intros P scale read drawing initial out name th ks H. exact (C132_lemma P scale read drawing initial out name th ks (in_themes _ _ H)). Qed.
Print Assumptions C132_files_partial.
(** No image when a file cannot be read or the settings do not last. *)
Theorem C132_error : forall P scale read (drawing : scale -> layer -> settings -> layer -> res (P -> Qc)) initial out name th before f after e,
  In (name, th) themes -> Forall (fun f => exists k, read f = Ok k) before -> read f = Err e -> (forall f s l, exists m, drawing initial f s l = Ok m) ->
  exists e', main_files P scale read drawing initial out name (before ++ f :: after) = ([], Err e') /\ (e' = e \/ e' = StopIteration).
Proof. intros P scale read drawing initial out name th before f after e H. exact (C132_error_lemma P scale read drawing initial out name th before f after e (in_themes _ _ H)). Qed.
Print Assumptions C132_error.
Theorem C132_stop_refuted : forall P scale read (drawing : scale -> layer -> settings -> layer -> res (P -> Qc)) initial out name th ks,
  In (name, th) themes -> Forall (fun x => read (fst x) = Ok (snd x)) ks ->
  (List.length (internals th) < number_of "internal" (file_layers 0 ks))%nat -> (forall f s l, exists m, drawing initial f s l = Ok m) ->
  main_files P scale read drawing initial out name (map fst ks) = ([], Err StopIteration).
Proof. intros P scale read drawing initial out name th ks H. exact (C132_stop_lemma P scale read drawing initial out name th ks (in_themes _ _ H)). Qed.
Print Assumptions C132_stop_refuted.
Example C132_ex : Forall (fun x => sample_read (fst x) = Ok (snd x)) (kinds with_outline) /\ kinds with_outline <> [] /\
  (number_of "internal" (file_layers 0 (kinds with_outline)) <= List.length (internals th_osh_park))%nat.
Proof. split; [repeat (apply Forall_cons; [reflexivity|]); constructor|]. split; [discriminate|]. vm_compute. repeat constructor. Qed.
Example C132_ex_stop : Forall (fun x => sample_read (fst x) = Ok (snd x)) (kinds many_files) /\
  (List.length (internals th_multilayer) < number_of "internal" (file_layers 0 (kinds many_files)))%nat.
Proof. split; [repeat (apply Forall_cons; [reflexivity|]); constructor|]. vm_compute. repeat constructor. Qed.
(** The background is not that of the theme: that of OSH Park is purple. *)
Theorem C132_background_refuted :
  match main_files unit unit sample_read (only "none") tt (T "out") "OSH Park" [T "amp.gtl"] with
  | ([(_, im)], Ok _) => forall bg, of_background th_osh_park bg -> red (fst (im tt)) <> red (s_color bg) * s_alpha bg
  | _ => False
  end.
Proof.
  assert (U : forall bg, of_background th_osh_park bg -> this (red (s_color bg) * s_alpha bg) <> (29 # 100)%Q).
  { intros bg [H|[H _]].
    - cbn in H. repeat (destruct H as [H|H]; [first [discriminate|injection H as <-; vm_compute; discriminate]|]). contradiction.
    - elim H. eexists. cbn. auto 10. }
  assert (V : match main_files unit unit sample_read (only "none") tt (T "out") "OSH Park" [T "amp.gtl"] with ([(_, im)], Ok _) => this (red (fst (im tt))) = (29 # 100)%Q | _ => False end) by (vm_compute; reflexivity).
  revert V. destruct (main_files unit unit sample_read (only "none") tt (T "out") "OSH Park" [T "amp.gtl"]) as [w r]. intros V.
  destruct w as [|[f im] [|y w]], r as [[]|e]; try contradiction. intros bg H Q. apply (U bg H). rewrite <- Q. exact V.
Qed.
Print Assumptions C132_background_refuted.
