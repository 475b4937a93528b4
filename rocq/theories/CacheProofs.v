(** Proofs about memoized bounding boxes. *)
From Coq Require Import Reals List Bool Lra Lia.
From Verif Require Import GeomModel GeomSpec GeomProofs CacheModel CacheSpec.
Import ListNotations.
Open Scope R_scope.
Open Scope list_scope.

Definition turned_ok (s : st) : Prop := cos_t s = cos (radians (rot s)) /\ sin_t s = sin (radians (rot s)).
Definition fresh (k : kind) (s : st) : Prop := cache s = None \/ cache s = Some (box_of k s).
Definition good (k : kind) (s : st) : Prop := turned_ok s /\ fresh k s.

Lemma box_rebuilt k s : turned_ok s -> box_of k (rebuilt s) = box_of k s.
Proof. intros [C S]. destruct k; try reflexivity. cbn. now rewrite C, S. Qed.
Lemma read_good k s : good k s -> fst (read k s) = box_of k s.
Proof. intros [_ [E|E]]; unfold read; now rewrite E. Qed.
Lemma good_up_to_date k s : good k s -> up_to_date k s.
Proof.
  intro G. split.
  - rewrite (read_good k s G). cbn. symmetry. apply box_rebuilt, G.
  - destruct k; try reflexivity; cbn [read_no_aperture]; rewrite (read_good _ s G); symmetry; refine (box_rebuilt _ s _); apply G.
Qed.
Lemma new_good k s : is_new s -> good k s.
Proof. intros ->. split; [split; reflexivity|now left]. Qed.
Lemma read_keeps k s : good k s -> good k (snd (read k s)).
Proof.
  intros [T F]. unfold read. destruct (cache s) eqn:E; [split; assumption|]. split; [exact T|]. right. cbn. destruct k; reflexivity.
Qed.
Lemma read_no_aperture_keeps k s : good k s -> good k (snd (read_no_aperture k s)).
Proof. intro G. destruct k; try exact G; now apply read_keeps. Qed.
Lemma set_point_none k a p s : cache s = None -> cache (set_point k a p s) = None.
Proof. intro H. unfold set_point. destruct (point_setter k a); [reflexivity|exact H]. Qed.
Lemma set_number_none k a p s : cache s = None -> cache (set_number k a p s) = None.
Proof. intro H. unfold set_number. destruct (number_setter k a); [reflexivity|exact H]. Qed.
Lemma set_point_turned k a p s : turned_ok s -> turned_ok (set_point k a p s).
Proof. unfold set_point. destruct (point_setter k a); auto. Qed.
Lemma set_number_turned k a p s : turned_ok s -> turned_ok (set_number k a p s).
Proof. unfold set_number. destruct (number_setter k a); auto. Qed.
Lemma offset_good k d s : exceptional k (Offset d) = false -> good k s -> good k (offset k d s).
Proof.
  intros X [T F]. split.
  - destruct k; unfold offset, move_point; repeat apply set_point_turned; exact T.
  - left. destruct k; try discriminate X; unfold offset, move_point; first [reflexivity|repeat apply set_point_none; reflexivity].
Qed.
Lemma convert_good k u s : good k s -> good k (convert k u s).
Proof.
  intros [T F]. unfold convert. destruct (units s) as [w|] eqn:U; [|split; assumption]. destruct (unit_eqb w (other_unit u)); [|split; assumption].
  set (f := unit_factor u). set (s1 := set_units (Some u) s).
  assert (H1 : turned_ok s1 /\ cache s1 = None) by (split; [exact T|reflexivity]).
  set (g2 := fun s a => set_point k a (f * fst (points s a), f * snd (points s a)) s).
  set (g3 := fun s a => set_number k a (f * numbers s a) s).
  assert (H2 : forall l s, turned_ok s /\ cache s = None -> turned_ok (fold_left g2 l s) /\ cache (fold_left g2 l s) = None).
  { induction l as [|a l IH]; intros s' H; [exact H|]. cbn [fold_left]. apply IH. unfold g2. split; [apply set_point_turned|apply set_point_none]; apply H. }
  assert (H3 : forall l s, turned_ok s /\ cache s = None -> turned_ok (fold_left g3 l s) /\ cache (fold_left g3 l s) = None).
  { induction l as [|a l IH]; intros s' H; [exact H|]. cbn [fold_left]. apply IH. unfold g3. split; [apply set_number_turned|apply set_number_none]; apply H. }
  cbn zeta. fold g2 g3. destruct (H3 (convert_numbers k) _ (H2 (convert_points k) _ H1)) as [HT HC].
  destruct k; (split; [exact HT|left; exact HC]).
Qed.
Lemma step_good k o s : exceptional k o = false -> good k s -> good k (step k o s).
Proof.
  intros X G. destruct o; cbn [step].
  - now apply read_keeps.
  - now apply read_no_aperture_keeps.
  - destruct G as [T F]. split; [now apply set_point_turned|]. unfold set_point. destruct (point_setter k a) eqn:E; [left; reflexivity|].
    destruct F as [F|F]; [left; exact F|right]. cbn [put_point cache]. rewrite F. f_equal. destruct k, a; try discriminate E; try discriminate X; reflexivity.
  - destruct G as [T F]. split; [now apply set_number_turned|]. unfold set_number. destruct (number_setter k a) eqn:E; [left; reflexivity|].
    destruct F as [F|F]; [left; exact F|right]. cbn [put_number cache]. rewrite F. f_equal. destruct k, a; try discriminate E; try discriminate X; reflexivity.
  - split; [split; reflexivity|left; reflexivity].
  - split; [exact (proj1 G)|left; reflexivity].
  - destruct G as [T F]. split; [exact T|]. destruct k; [| left; reflexivity | ..];
      (destruct F as [F|F]; [left; exact F|right; cbn [set_quadrant cache]; rewrite F; reflexivity]).
  - destruct G as [T F]. split; [exact T|]. destruct F as [F|F]; [left; exact F|right]. cbn [set_aperture cache]. rewrite F. destruct k; try discriminate X; reflexivity.
  - destruct G as [T F]. split; [exact T|]. destruct F as [F|F]; [left; exact F|right]. cbn [set_direction cache]. rewrite F. destruct k; try discriminate X; reflexivity.
  - now apply offset_good.
  - now apply convert_good.
Qed.
Lemma run_good k l s : Forall (fun o => exceptional k o = false) l -> good k s -> good k (run k l s).
Proof. intro F. revert s. induction F as [|o l X F IH]; intros s G; [exact G|]. cbn. apply IH, step_good; assumption. Qed.
Lemma C51_lemma k l s : is_new s -> Forall (fun o => exceptional k o = false) l -> up_to_date k (run k l s).
Proof. intros N F. apply good_up_to_date, run_good; [exact F|now apply new_good]. Qed.

(** ** Every exception is a real one. *)
Definition plain (d : direction) (ps : pattr -> pt) : st := create ps (fun _ => 0) (Round 0) d MultiQuadrant 0 None.
Definition origin_of (_ : pattr) : pt := (0, 0).
Lemma x_max_differs (b c : rbox) : snd (fst b) <> snd (fst c) -> b <> c. Proof. congruence. Qed.
Lemma y_max_differs (b c : rbox) : snd (snd b) <> snd (snd c) -> b <> c. Proof. congruence. Qed.
Lemma stale_after k o s s' : cache s = None -> read k (step k o (snd (read k s))) = (box_of k s, s') -> box_of k (rebuilt (step k o (snd (read k s)))) <> box_of k s ->
  ~ up_to_date k (run k [Read; o] s).
Proof. intros N R D [E _]. cbn [run fold_left step] in E. change (snd (read k s)) with (snd (read k s)) in E. rewrite R in E. cbn [fst] in E. cbn [read rebuilt create cache fst] in E. now apply D. Qed.
Lemma arc_turned : box_of Arc (plain Clockwise (fun a => match a with Start => (1, 0) | End => (0, 1) | _ => (0, 0) end)) <>
                   box_of Arc (plain Counterclockwise (fun a => match a with Start => (1, 0) | End => (0, 1) | _ => (0, 0) end)).
Proof.
  intro E. cbn [box_of plain create ap the_arc points dir quad arc_box] in E.
  set (a := mkArc (1, 0) (0, 1) (0, 0) Clockwise MultiQuadrant) in *. set (b := mkArc (1, 0) (0, 1) (0, 0) Counterclockwise MultiQuadrant) in *.
  pose proof PI_RGT_0.
  assert (A : arc_is a 1 0 (PI * (3 / 2))).
  { split; [lra|]. split; [lra|]. unfold a, turning. cbn [a_start a_end a_center a_dir]. rewrite at_0. split; [apply pt_eq; cbn; lra|].
    replace (0 - PI * (3 / 2)) with (PI / 2 + 2 * IZR (-1) * PI) by field. rewrite at_angle_k, at_90. apply pt_eq; cbn; lra. }
  assert (B : arc_is b 1 0 (PI / 2)).
  { split; [lra|]. split; [lra|]. unfold b, turning. cbn [a_start a_end a_center a_dir]. rewrite Rplus_0_l, at_0, at_90. split; apply pt_eq; cbn; lra. }
  destruct (arc0_bounds a _ _ _ eq_refl A) as [EA _], (arc0_bounds b _ _ _ eq_refl B) as [_ ((p & Op & Ep) & _)].
  assert (I : on_arc a (-1, 0)).
  { exists 1, 0, (PI * (3 / 2)), PI. split; [exact A|]. split; [lra|]. unfold a. cbn [a_center a_dir turning].
    replace (0 - PI) with (PI + 2 * IZR (-1) * PI) by field. rewrite at_angle_k, at_180. apply pt_eq; cbn; lra. }
  specialize (EA _ I). destruct EA as [[EA _] _]. cbn [fst] in EA. apply (on_arc_ccw b _ _ _ p B) in Op. destruct Op as (t & Ht & ->).
  change (0 + 1 * cos (0 + t) = fst (fst (arc_box0 b))) in Ep. rewrite (Rplus_0_l t) in Ep.
  assert (0 <= cos t) by (apply cos_ge_0; lra).
  assert (E' : fst (fst (arc_box0 a)) = fst (fst (arc_box0 b))).
  { change (BoxModel.grow Rplus Rminus (arc_box0 a) 0 0 = BoxModel.grow Rplus Rminus (arc_box0 b) 0 0) in E. apply (f_equal (fun x : rbox => fst (fst x))) in E.
    change (fst (fst (arc_box0 a)) - 0 = fst (fst (arc_box0 b)) - 0) in E. lra. }
  rewrite E' in EA. change (fst (-1, 0)) with (-1) in EA. lra.
Qed.
Lemma exceptions_lemma k o : exceptional k o = true -> exists s o', is_new s /\ same_attribute o o' /\ exceptional k o' = true /\ ~ up_to_date k (run k [Read; o'] s).
Proof.
  intro X.
  assert (NS : forall d ps, is_new (plain d ps)) by reflexivity.
  assert (G : forall o' s s', is_new s -> cache s = None -> same_attribute o o' -> exceptional k o' = true ->
     read k (step k o' (snd (read k s))) = (box_of k s, s') -> box_of k (rebuilt (step k o' (snd (read k s)))) <> box_of k s ->
     exists s o', is_new s /\ same_attribute o o' /\ exceptional k o' = true /\ ~ up_to_date k (run k [Read; o'] s)).
  { intros o' s s' N C SA EX R D. exists s, o'. split; [exact N|]. split; [exact SA|]. split; [exact EX|]. now apply stale_after with s'. }
  destruct k, o; try discriminate X; try (destruct a; try discriminate X).
  Ltac use G NS o' := refine (G o' (plain Clockwise origin_of) _ (NS _ _) eq_refl _ eq_refl eq_refl _); [first [exact I|reflexivity]|apply x_max_differs].
  Ltac simple_box := cbn; unfold slot_box, BoxModel.slot_box, circle_box, BoxModel.circle_box, half; cbn; lra.
  1-2: use G NS (SetAperture (Round 1)); change (snd (fst (line_box0 (0, 0) (0, 0))) + 1 <> snd (fst (line_box0 (0, 0) (0, 0))) + 0); lra.
  1-2: use G NS (SetAperture (Round 1)); set (a := the_arc (plain Clockwise origin_of)); change (snd (fst (arc_box0 a)) + 1 <> snd (fst (arc_box0 a)) + 0); lra.
  - exact (G (SetDirection Clockwise) (plain Counterclockwise (fun a => match a with Start => (1, 0) | End => (0, 1) | _ => (0, 0) end)) _ (NS _ _) eq_refl I eq_refl eq_refl arc_turned).
  - use G NS (SetPoint Position (1, 0)). simple_box.
  - use G NS (SetNumber Diameter 1). simple_box.
  - use G NS (SetPoint Position (1, 0)). simple_box.
  - use G NS (SetNumber Side 1). simple_box.
  - use G NS (SetPoint Position (1, 0)). simple_box.
  - use G NS (SetNumber Width 1). simple_box.
  - refine (G (SetNumber Height 1) (plain Clockwise origin_of) _ (NS _ _) eq_refl _ eq_refl eq_refl _); [reflexivity|apply y_max_differs]. simple_box.
  - use G NS (SetPoint Position (1, 0)). simple_box.
  - use G NS (SetNumber OuterDiameter 1). simple_box.
  - use G NS (SetPoint Start (1, 0)). change (Rmax 1 0 + 0 / 2 <> Rmax 0 0 + 0 / 2). rewrite !Rmax_left by lra. lra.
  - use G NS (SetPoint End (1, 0)). change (Rmax 0 1 + 0 / 2 <> Rmax 0 0 + 0 / 2). rewrite (Rmax_right 0 1), (Rmax_left 0 0) by lra. lra.
  - use G NS (SetNumber Diameter 1). change (Rmax 0 0 + 1 / 2 <> Rmax 0 0 + 0 / 2). lra.
  - use G NS (Offset (1, 0)). change (Rmax (0 + 1) (0 + 1) + 0 / 2 <> Rmax 0 0 + 0 / 2). rewrite !Rmax_left by lra. lra.
Qed.

(** ** Groups. *)
Definition part_reader (k : group_kind) : kind -> st -> rbox * st := match k with Region => read_no_aperture | _ => read end.
Definition part_box (k : group_kind) (x : kind * st) : rbox :=
  match k, fst x with
  | Region, Line => line_box0 (points (snd x) Start) (points (snd x) End)
  | Region, Arc => arc_box0 (the_arc (snd x))
  | _, k' => box_of k' (snd x)
  end.
Definition g_box (k : group_kind) (l : list (kind * st)) : option rbox := boxes_box (map (part_box k) l).
Definition all_good (g : group) : Prop := forall x, In x (parts g) -> good (fst x) (snd x).
Definition g_good (k : group_kind) (g : group) : Prop :=
  all_good g /\ (g_cache g = None \/ (k <> Macro /\ g_cache g = g_box k (parts g))).

Lemma part_read k x : good (fst x) (snd x) -> fst (part_reader k (fst x) (snd x)) = part_box k x.
Proof.
  destruct x as [k' s]. cbn [fst snd]. intro G. pose proof (read_good k' s G) as R.
  destruct k; [|exact R..]. destruct k'; try reflexivity; exact R.
Qed.
Lemma part_read_box k k' x : good (fst x) (snd x) -> part_box k (fst x, snd (part_reader k' (fst x) (snd x))) = part_box k x.
Proof.
  destruct x as [kx s]. cbn [fst snd]. intros _.
  assert (R : forall j, part_box k (j, snd (read j s)) = part_box k (j, s)).
  { intro j. unfold read. destruct (cache s); [reflexivity|]. destruct k, j; reflexivity. }
  destruct k'; cbn [part_reader]; try apply R. destruct kx; cbn [read_no_aperture snd]; try apply R; reflexivity.
Qed.
Lemma part_rebuilt k x : turned_ok (snd x) -> part_box k (fst x, rebuilt (snd x)) = part_box k x.
Proof.
  destruct x as [k' s]. cbn [fst snd]. intro T. pose proof (box_rebuilt k' s T) as B.
  destruct k; [|exact B..]. destruct k'; try reflexivity; exact B.
Qed.
Lemma rebuilt_good k s : good k (rebuilt s). Proof. split; [split; reflexivity|now left]. Qed.
Lemma g_box_map k f l : (forall x, In x l -> part_box k (f x) = part_box k x) -> g_box k (map f l) = g_box k l.
Proof. intro H. unfold g_box. rewrite map_map. f_equal. apply map_ext_in. exact H. Qed.
Lemma g_read_good k g : g_good k g -> fst (g_read k g) = g_box k (parts g).
Proof.
  intros [A C]. unfold g_read. destruct (g_cache g) as [b|] eqn:E.
  - destruct C as [C|[_ C]]; [discriminate|]. exact C.
  - cbn [read_parts fst]. unfold g_box. f_equal. apply map_ext_in. intros x I. change (match k with Region => read_no_aperture | _ => read end) with (part_reader k). now apply part_read, A.
Qed.
Lemma g_rebuilt_good k g : g_good k (g_rebuilt g).
Proof. split; [|now left]. intros x I. cbn in I. apply in_map_iff in I. destruct I as (y & <- & I). apply rebuilt_good. Qed.
Lemma g_good_up_to_date k g : g_good k g -> g_up_to_date k g.
Proof.
  intro G. unfold g_up_to_date. rewrite (g_read_good k g G), (g_read_good k _ (g_rebuilt_good k g)). cbn [g_rebuilt parts]. symmetry. apply g_box_map.
  intros x I. apply part_rebuilt. now apply (proj1 G).
Qed.
Lemma g_new_good k g : g_is_new g -> g_good k g.
Proof. intros ->. apply g_rebuilt_good. Qed.
Lemma part_reader_keeps k x : good (fst x) (snd x) -> good (fst x) (snd (part_reader k (fst x) (snd x))).
Proof. intro G. destruct k; cbn [part_reader]; [now apply read_no_aperture_keeps|now apply read_keeps..]. Qed.
Definition kinds (g : group) : list kind := map fst (parts g).
Lemma at_nth_in {A} i (f : A -> A) l x : In x (at_nth i f l) -> In x l \/ exists y, nth_error l i = Some y /\ x = f y.
Proof.
  revert i. induction l as [|a l IH]; intros i I; [destruct i; contradiction|]. destruct i as [|i]; cbn in I.
  - destruct I as [<-|I]; [right; now exists a|left; now right].
  - destruct I as [<-|I]; [left; now left|]. destruct (IH _ I) as [H|(y & H & ->)]; [left; now right|right; now exists y].
Qed.
Lemma at_nth_map {A B} i (f : A -> A) (h : A -> B) l : (forall x, h (f x) = h x) -> map h (at_nth i f l) = map h l.
Proof. intro H. revert i. induction l as [|a l IH]; intros [|i]; cbn; try reflexivity; [now rewrite H|now rewrite IH]. Qed.
Lemma step_kinds k o g : kinds (g_step k o g) = kinds g.
Proof.
  destruct o; cbn [g_step]; unfold kinds.
  - unfold g_read. destruct (g_cache g); [reflexivity|]. cbn. rewrite map_map. reflexivity.
  - cbn. rewrite map_map. reflexivity.
  - unfold g_convert. destruct (g_units g) as [w|]; [|reflexivity]. destruct (unit_eqb w (other_unit u)); [|reflexivity]. cbn [parts].
    destruct (parts g) as [|x [|y l]]; try reflexivity. rewrite map_map. reflexivity.
  - cbn [parts]. apply at_nth_map. reflexivity.
Qed.
Lemma g_step_good k o g : ~ In Slot (kinds g) -> g_exceptional k (kinds g) o = false -> g_good k g -> g_good k (g_step k o g).
Proof.
  intros NS X [A C]. destruct o as [|d|u|i o]; cbn [g_step].
  - unfold g_read. destruct (g_cache g) as [b|] eqn:E; [cbn [snd]; split; [exact A|]; rewrite E; exact C|].
    change (match k with Region => read_no_aperture | _ => read end) with (part_reader k). cbn [read_parts snd]. split.
    + intros x I. cbn [parts] in I. apply in_map_iff in I. destruct I as (y & <- & I). cbn [fst snd]. now apply part_reader_keeps, A.
    + cbn [g_cache parts].
      assert (B : boxes_box (map (fun x => fst (part_reader k (fst x) (snd x))) (parts g)) = g_box k (map (fun x => (fst x, snd (part_reader k (fst x) (snd x)))) (parts g))).
      { rewrite g_box_map by (intros x I; now apply part_read_box, A). unfold g_box. f_equal. apply map_ext_in. intros x I. now apply part_read, A. }
      destruct k; [right; split; [discriminate|exact B]..|now left].
  - split.
    + intros x I. cbn in I. apply in_map_iff in I. destruct I as (y & <- & I). cbn [fst snd]. apply offset_good; [|now apply A].
      assert (fst y <> Slot) by (intro E; apply NS; rewrite <- E; now apply in_map). destruct (fst y); try reflexivity; congruence.
    + left. cbn. destruct k; try reflexivity. destruct C as [C|[C _]]; [exact C|congruence].
  - unfold g_convert. destruct (g_units g) as [w|]; [|split; assumption]. destruct (unit_eqb w (other_unit u)); [|split; assumption].
    split; [|now left]. intros x I. cbn [parts] in I. destruct (parts g) as [|p [|q l]] eqn:E.
    + contradiction.
    + apply A. now rewrite E.
    + rewrite <- E in I. apply in_map_iff in I. destruct I as (y & <- & I). cbn [fst snd]. apply convert_good. now apply A.
  - split.
    + intros x I. cbn [parts] in I. apply at_nth_in in I. destruct I as [I|(y & N & ->)]; [now apply A|]. cbn [fst snd]. apply step_good; [|apply A; eapply nth_error_In; exact N].
      assert (N' : nth_error (kinds g) i = Some (fst y)) by (unfold kinds; now rewrite nth_error_map, N).
      destruct o; cbn [g_exceptional] in X; try (destruct k; try discriminate X; rewrite N' in X; exact X); destruct (fst y); reflexivity.
    + cbn [g_cache parts]. destruct C as [C|[K C]]; [now left|]. right. split; [exact K|].
      rewrite C. unfold g_box. f_equal. symmetry. apply at_nth_map. intros [kx s]. cbn [fst snd].
      assert (R : forall j, part_box k (j, snd (read j s)) = part_box k (j, s)).
      { intro j. unfold read. destruct (cache s); [reflexivity|]. destruct k, j; reflexivity. }
      destruct o; cbn [g_exceptional] in X; try (destruct k; [discriminate X..|congruence]); cbn [step].
      * apply R.
      * destruct kx; cbn [read_no_aperture snd]; try apply R; reflexivity.
Qed.
Lemma C51_groups_lemma k l g : g_is_new g -> no_slots g -> Forall (fun o => g_exceptional k (map fst (parts g)) o = false) l -> g_up_to_date k (g_run k l g).
Proof.
  intros N S F. apply g_good_up_to_date. apply (g_new_good k) in N.
  assert (S' : ~ In Slot (kinds g)). { intro I. apply in_map_iff in I. destruct I as (x & E & I). exact (S x I E). } clear S.
  change (map fst (parts g)) with (kinds g) in F. revert g N S' F. induction l as [|o l IH]; intros g N S F; [exact N|]. inversion F; subst. cbn. apply IH.
  - now apply g_step_good.
  - now rewrite step_kinds.
  - rewrite step_kinds. assumption.
Qed.
