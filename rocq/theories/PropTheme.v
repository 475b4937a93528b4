(** Properties of themes and of the images of boards. *)
From Verif Require Import PyBase QcLib ThemeModel ThemeSpec ThemeProofs.
Open Scope list_scope.
Open Scope Qc_scope.

(** ** C121 *)
(** While the internal settings of the theme last, every layer is drawn with the settings of its class, an
    internal layer with the next of them, and the image is the background with the layers on it in their order. *)
Theorem C121_layers_partial : forall P layer (class_of : layer -> string) (drawing : settings -> layer -> res (P -> Qc)) th used ls,
  NoDup (map fst (given th)) -> ls <> [] -> (used + count layer class_of ls <= List.length (internals th))%nat ->
  exists bg ss, of_background th bg /\ (List.length ss = List.length ls)%nat /\
    (forall i s, nth_error ss i = Some s -> chosen th used (map class_of ls) i s /\ forall s', chosen th used (map class_of ls) i s' -> s' = s) /\
    forall ms, Forall2 (fun x m => drawing (fst x) (snd x) = Ok m) (combine ss ls) ms ->
      exists im, render_layers P layer class_of drawing th used ls = Ok ((used + count layer class_of ls)%nat, im) /\
        forall p, mixed ((s_color bg, s_alpha bg) :: seen P ss ms p) (im p).
Proof. exact C121_lemma. Qed.
Print Assumptions C121_layers_partial.
(** When they do not last there is no image. *)
Theorem C121_stop_partial : forall P layer (class_of : layer -> string) (drawing : settings -> layer -> res (P -> Qc)) th used ls,
  (used <= List.length (internals th))%nat -> (forall s l, exists m, drawing s l = Ok m) ->
  (render_layers P layer class_of drawing th used ls = Err StopIteration <-> (used + count layer class_of ls > List.length (internals th))%nat).
Proof. exact C121_stop_lemma. Qed.
Print Assumptions C121_stop_partial.
(** Without layers there is no image either. *)
Theorem C121_empty_partial : forall P layer (class_of : layer -> string) (drawing : settings -> layer -> res (P -> Qc)) th used,
  render_layers P layer class_of drawing th used [] = Err AttributeError.
Proof. reflexivity. Qed.
Print Assumptions C121_empty_partial.
(** A board of four layers on a strip of points; every layer covers the points up to its position. *)
Definition strip (s : settings) (l : nat * string) : res (nat -> Qc) := Ok (fun p => if (p <=? fst l)%nat then 1 else 0).
Definition board (classes : list string) : list (nat * string) := combine (seq 0 (List.length classes)) classes.
Example C121_ex : NoDup (map fst (given th_blue)) /\ board ["bottom"; "internal"; "internal"; "topmask"]%string <> [] /\
  (3 + count _ snd (board ["bottom"; "internal"; "internal"; "topmask"]%string) <= List.length (internals th_blue))%nat.
Proof. split; [cbn; repeat (constructor; [cbn; intuition discriminate|]); constructor|]. split; [discriminate|]. vm_compute. repeat constructor. Qed.
Example C121_ex_colour : match render_layers nat _ snd strip th_blue 0 (board ["bottom"; "internal"; "internal"; "topmask"]%string) with
  | Ok (used, im) => used = 2%nat /\ this (red (fst (im 3%nat))) = this (mil 59 * mil 800 + mil 290 * mil 200) /\ this (blue (fst (im 1%nat))) = this (mil 651 * mil 800 + mil 251 * mil 200)
  | Err _ => False
  end.
Proof. vm_compute. repeat split. Qed.
(** The full statement is false.  Nine internal layers: *)
Theorem C121_ninth_refuted : render_layers nat _ snd strip th_default 0 (board (repeat "internal"%string 9)) = Err StopIteration.
Proof. vm_compute. reflexivity. Qed.
Print Assumptions C121_ninth_refuted.
(** The same board twice, with the same theme: another colour, and none the third time. *)
Theorem C121_again_refuted :
  match render_layers nat _ snd strip th_default 0 (board (repeat "internal"%string 3)) with
  | Ok (used, im) =>
      match render_layers nat _ snd strip th_default used (board (repeat "internal"%string 3)) with
      | Ok (used', im') => this (red (fst (im 0%nat))) <> this (red (fst (im' 0%nat))) /\
          render_layers nat _ snd strip th_default used' (board (repeat "internal"%string 3)) = Err StopIteration
      | Err _ => False
      end
  | Err _ => False
  end.
Proof. vm_compute. split; [discriminate|reflexivity]. Qed.
Print Assumptions C121_again_refuted.
(** Settings given for outlines are not used. *)
Theorem C121_outline_refuted : exists th, In ("outline"%string, Some (plain c_red)) (given th) /\
  match render_layers nat _ snd strip th 0 (board ["outline"]%string) with
  | Ok (_, im) => this (red (fst (im 0%nat))) = 0%Q
  | Err _ => False
  end.
Proof. exists (mkTheme [("outline"%string, Some (plain c_red))] default_internals). split; [now left|]. vm_compute. reflexivity. Qed.
Print Assumptions C121_outline_refuted.

(** ** C122 *)
(** Images on an opaque background are opaque with channels between 0 and 1; where no layer covers a point the
    background shows, and where an opaque layer covers it and no layer above does, the colour of that layer. *)
Theorem C122_colours : forall P layer (class_of : layer -> string) (drawing : settings -> layer -> res (P -> Qc)) th used ls,
  NoDup (map fst (given th)) -> ls <> [] -> (used + count layer class_of ls <= List.length (internals th))%nat ->
  exists bg ss, of_background th bg /\ (List.length ss = List.length ls)%nat /\
    (forall i s, nth_error ss i = Some s -> chosen th used (map class_of ls) i s) /\
    forall ms, Forall2 (fun x m => drawing (fst x) (snd x) = Ok m) (combine ss ls) ms ->
      exists im, render_layers P layer class_of drawing th used ls = Ok ((used + count layer class_of ls)%nat, im) /\
        forall p, Forall good_settings ss -> good_settings bg -> s_alpha bg = 1 -> Forall (fun m => between01 (m p)) ms ->
          snd (im p) = 1 /\ good_color (fst (im p)) /\
          (Forall (fun m => m p = 0) ms -> fst (im p) = s_color bg) /\
          (forall k s m, nth_error ss k = Some s -> nth_error ms k = Some m -> s_alpha s = 1 -> m p = 1 ->
             Forall (fun m => m p = 0) (skipn (S k) ms) -> fst (im p) = s_color s).
Proof.
  intros P layer class_of drawing th used ls N NE C. destruct (C121_lemma P layer class_of drawing th used ls N NE C) as (bg & ss & B & L & K & M).
  exists bg, ss. split; [exact B|]. split; [exact L|]. split; [intros i s E; now apply K|]. intros ms D. destruct (M ms D) as (im & E & X).
  exists im. split; [exact E|]. intros p GS GB A GM. exact (C122_image P bg ss ms (im p) p GS GB A GM (X p)).
Qed.
Print Assumptions C122_colours.
(** The settings of the themes are good. *)
Example C122_ex : Forall (fun th => Forall (fun x => match snd x with Some s => good_settings s | None => False end) (given (snd th)) /\ Forall good_settings (internals (snd th))) themes /\
  Forall (fun x => good_settings (snd x)) defaults.
Proof.
  assert (D : forall a, Qle_bool 0 (this a) && Qle_bool (this a) 1 = true -> between01 a).
  { intros a H. apply andb_prop in H as [H1 H2]. split; [now apply Qle_bool_iff in H1|now apply Qle_bool_iff in H2]. }
  unfold themes. split; repeat (first [apply Forall_cons|apply Forall_nil|split]); cbn [snd s_color s_alpha]; apply D; vm_compute; reflexivity.
Qed.

(** ** C123 *)
(** A theme whose own settings have the right sides has the right sides. *)
Theorem C123_sides_partial : forall th, NoDup (map fst (given th)) ->
  (forall c s, In (c, Some s) (given th) ->
     (In c bottom_classes -> s_mirror s = true) /\ (In c top_classes -> s_mirror s = false) /\ (In c ["topmask"; "bottommask"]%string -> s_invert s = true)) ->
  (forall c, In (c, None) (given th) -> ~ In c bottom_classes /\ c <> "topmask"%string) -> good_sides th.
Proof. exact C123_lemma. Qed.
Print Assumptions C123_sides_partial.
(** Two of the predefined themes. *)
Theorem C123_predefined_partial : good_sides th_default /\ good_sides th_osh_park.
Proof.
  split; (apply C123_sides_partial; [cbn; repeat (constructor; [cbn; intuition discriminate|]); constructor| |]).
  - intros c s [].
  - intros c [].
  - intros c s I. cbn in I. repeat (destruct I as [I|I]; [injection I as <- <-; cbn; intuition (try discriminate)|]). destruct I.
  - intros c I. cbn in I. repeat (destruct I as [I|I]; [discriminate|]). destruct I.
Qed.
Print Assumptions C123_predefined_partial.
Example C123_ex : NoDup (map fst (given th_osh_park)) /\ (forall c s, In (c, Some s) (given th_osh_park) ->
     (In c bottom_classes -> s_mirror s = true) /\ (In c top_classes -> s_mirror s = false) /\ (In c ["topmask"; "bottommask"]%string -> s_invert s = true)).
Proof.
  split; [cbn; repeat (constructor; [cbn; intuition discriminate|]); constructor|].
  intros c s I. cbn in I. repeat (destruct I as [I|I]; [injection I as <- <-; cbn; intuition (try discriminate)|]). destruct I.
Qed.
(** The full statement is false: three of the five themes draw a bottom layer unmirrored among mirrored ones. *)
Theorem C123_blue_refuted :
  (exists s, of_class th_blue "bottommask" s /\ s_mirror s = false) /\ (exists s, of_class th_blue "bottom" s /\ s_mirror s = true).
Proof.
  split; eexists; split.
  - apply class_given; [cbn; auto 10|]. cbn. right. left. reflexivity.
  - reflexivity.
  - apply class_default; [cbn; intuition discriminate|]. cbn. auto 10.
  - reflexivity.
Qed.
Print Assumptions C123_blue_refuted.
Theorem C123_transparent_refuted : forall th, In th [th_transparent; th_multilayer] ->
  (exists s, of_class th "bottom" s /\ s_mirror s = false) /\ (exists s, of_class th "bottommask" s /\ s_mirror s = true).
Proof.
  intros th [<-|[<-|[]]]; (split; eexists; split;
    [apply class_given; [cbn; auto 10|cbn; right; right; left; reflexivity]|reflexivity|apply class_default; [cbn; intuition discriminate|cbn; auto 10]|reflexivity]).
Qed.
Print Assumptions C123_transparent_refuted.
