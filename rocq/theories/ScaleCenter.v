(** The centre found for an arc in single quadrant mode grows with the arc. *)
From Verif Require Import GeomModel CenterModel CacheMove.
From Coq Require Import Lra.
Import ListNotations.
Open Scope R_scope.
Open Scope list_scope.

Definition times_pt (k : R) (p : pt) : pt := (k * fst p, k * snd p).
(** The four points that the offsets may mean. *)
Definition four_centers (start offsets : pt) : list pt :=
  [(fst start + fst offsets, snd start + snd offsets); (fst start + fst offsets, snd start - snd offsets);
   (fst start - fst offsets, snd start + snd offsets); (fst start - fst offsets, snd start - snd offsets)].
(** The difference of the squared distances to the two ends. *)
Definition difference (a b c : pt) : R :=
  Rabs (((fst a - fst c) * (fst a - fst c) + (snd a - snd c) * (snd a - snd c)) - ((fst b - fst c) * (fst b - fst c) + (snd b - snd c) * (snd b - snd c))).
(** No difference reaches the number from which on the code finds no centre. *)
Definition moderate (a b o : pt) : Prop := Forall (fun c => difference a b c < maxsize) (four_centers a o).

Section Grow.
Variable k : R.
Hypothesis kpos : 0 < k.
Lemma sweep_grows d a b c : sweep d (times_pt k a) (times_pt k b) (times_pt k c) = sweep d a b c.
Proof.
  assert (T0 : theta0 (mkArc (times_pt k a) (times_pt k b) (times_pt k c) d SingleQuadrant) = theta0 (mkArc a b c d SingleQuadrant)).
  { unfold theta0, start_angle. cbn. rewrite <- !Rmult_minus_distr_l. now rewrite (atan2_scale k kpos). }
  assert (T1 : theta1 (mkArc (times_pt k a) (times_pt k b) (times_pt k c) d SingleQuadrant) = theta1 (mkArc a b c d SingleQuadrant)).
  { unfold theta1, end_angle. cbn. rewrite <- !Rmult_minus_distr_l. now rewrite (atan2_scale k kpos). }
  unfold sweep, sweep_angle. now rewrite T0, T1.
Qed.
Lemma error_grows a b c : radius_error (times_pt k a) (times_pt k b) (times_pt k c) = k * k * radius_error a b c.
Proof.
  unfold radius_error, sq_distance. cbn. rewrite <- (Rabs_right (k * k)) at 1 by nra. rewrite <- Rabs_mult. f_equal. ring.
Qed.
Lemma ltb_scale x y : ltb (k * k * x) (k * k * y) = ltb x y.
Proof. unfold ltb. assert (0 < k * k) by nra. destruct (Rlt_dec (k * k * x) (k * k * y)), (Rlt_dec x y); try reflexivity; nra. Qed.
(** After the first accepted centre the bound grows too; before, both bounds are out of reach. *)
Definition grown (s s' : option pt * R) : Prop :=
  (fst s = None /\ s = (None, maxsize) /\ s' = (None, maxsize)) \/ (exists c, s = (Some c, snd s) /\ s' = (Some (times_pt k c), k * k * snd s)).
Lemma try_grows d a b c s s' : grown s s' -> radius_error a b c < maxsize -> k * k * radius_error a b c < maxsize ->
  grown (try_center d a b s c) (try_center d (times_pt k a) (times_pt k b) s' (times_pt k c)).
Proof.
  intros G L1 L2. unfold try_center. rewrite sweep_grows, error_grows. destruct (leb 0 _ && leb _ _)%bool eqn:W.
  - rewrite !Bool.andb_true_r. destruct G as [(_ & -> & ->)|(c0 & S & ->)]; cbn [snd].
    + unfold ltb. destruct (Rlt_dec (radius_error a b c) maxsize); [|contradiction]. destruct (Rlt_dec (k * k * radius_error a b c) maxsize); [|contradiction]. right. exists c. auto.
    + rewrite ltb_scale. destruct (ltb (radius_error a b c) (snd s)); right; eauto.
  - rewrite !Bool.andb_false_r. exact G.
Qed.
Lemma fold_grows d a b cs : Forall (fun c => radius_error a b c < maxsize /\ k * k * radius_error a b c < maxsize) cs ->
  forall s s', grown s s' -> grown (fold_left (try_center d a b) cs s) (fold_left (try_center d (times_pt k a) (times_pt k b)) (map (times_pt k) cs) s').
Proof.
  induction 1 as [|c cs [A B] _ IH]; intros s s' G; [exact G|]. cbn [fold_left map]. apply IH. now apply try_grows.
Qed.
Lemma centers_are a o : map (test_center a o) factors = four_centers a o.
Proof. unfold factors, four_centers, test_center. cbn. repeat (f_equal; try ring). Qed.
Lemma centers_grow a o : four_centers (times_pt k a) (times_pt k o) = map (times_pt k) (four_centers a o).
Proof. unfold four_centers, times_pt. cbn. repeat (f_equal; try ring). Qed.
Lemma find_center_grows q d a b o : moderate a b o -> moderate (times_pt k a) (times_pt k b) (times_pt k o) ->
  find_center q d (times_pt k a) (times_pt k b) (times_pt k o) = option_map (times_pt k) (find_center q d a b o).
Proof.
  intros M1 M2. unfold find_center. destruct q.
  - rewrite !centers_are, centers_grow. unfold moderate in *. rewrite centers_grow in M2.
    assert (F : Forall (fun c => radius_error a b c < maxsize /\ k * k * radius_error a b c < maxsize) (four_centers a o)).
    { rewrite Forall_map in M2. rewrite Forall_forall in *. intros c I. split; [exact (M1 c I)|]. rewrite <- error_grows. exact (M2 c I). }
    assert (G0 : grown (None, maxsize) (None, maxsize)) by (left; auto).
    destruct (fold_grows d a b _ F _ _ G0) as [(_ & E1 & E2)|(c & E1 & E2)]; rewrite E1, E2; reflexivity.
  - cbn. unfold times_pt. cbn. do 2 f_equal; ring.
Qed.
End Grow.

(** ... and moves with it. *)
Definition plus_pt (d p : pt) : pt := (fst p + fst d, snd p + snd d).
Lemma find_center_moves q dir d a b o :
  find_center q dir (plus_pt d a) (plus_pt d b) o = option_map (plus_pt d) (find_center q dir a b o).
Proof.
  unfold find_center. destruct q.
  - rewrite !centers_are.
    assert (C : four_centers (plus_pt d a) o = map (plus_pt d) (four_centers a o)) by (unfold four_centers, plus_pt; cbn; repeat (f_equal; try ring)).
    rewrite C. generalize (four_centers a o) as cs. intros cs.
    assert (G : forall c s, try_center dir (plus_pt d a) (plus_pt d b) (option_map (plus_pt d) (fst s), snd s) (plus_pt d c) =
      (option_map (plus_pt d) (fst (try_center dir a b s c)), snd (try_center dir a b s c))).
    { intros c s. unfold try_center.
      assert (D : forall p r : pt, fst (plus_pt d p) - fst (plus_pt d r) = fst p - fst r /\ snd (plus_pt d p) - snd (plus_pt d r) = snd p - snd r) by (intros; cbn; split; ring).
      assert (S : sweep dir (plus_pt d a) (plus_pt d b) (plus_pt d c) = sweep dir a b c).
      { unfold sweep, sweep_angle, theta0, theta1, start_angle, end_angle. cbn [a_start a_end a_center a_dir].
        now rewrite !(proj1 (D a c)), !(proj2 (D a c)), !(proj1 (D b c)), !(proj2 (D b c)). }
      assert (E : radius_error (plus_pt d a) (plus_pt d b) (plus_pt d c) = radius_error a b c).
      { unfold radius_error, sq_distance. now rewrite !(proj1 (D a c)), !(proj2 (D a c)), !(proj1 (D b c)), !(proj2 (D b c)). }
      rewrite S, E. cbn [snd]. destruct (_ && _)%bool; reflexivity. }
    change (None, maxsize) with (option_map (plus_pt d) (fst (@None pt, maxsize)), snd (@None pt, maxsize)) at 1.
    generalize (@None pt, maxsize) as s. induction cs as [|c cs IH]; intros s; [reflexivity|]. cbn [fold_left map]. now rewrite G, IH.
  - cbn. unfold plus_pt. cbn. do 2 f_equal; ring.
Qed.
Lemma moderate_small a b o : Rabs (fst a) <= 1000 -> Rabs (snd a) <= 1000 -> Rabs (fst b) <= 1000 -> Rabs (snd b) <= 1000 ->
  Rabs (fst o) <= 1000 -> Rabs (snd o) <= 1000 -> moderate a b o.
Proof.
  intros A1 A2 B1 B2 O1 O2. destruct a as [ax ay], b as [bx by_], o as [ox oy]. unfold moderate, four_centers, maxsize. cbn [fst snd] in *.
  assert (Q : forall x, Rabs x <= 1000 -> -1000 <= x <= 1000) by (intros x; unfold Rabs; destruct (Rcase_abs x); intros; split; lra).
  apply Q in A1, A2, B1, B2, O1, O2.
  assert (S : forall x, -4000 <= x <= 4000 -> 0 <= x * x <= 16000000) by (intros; nra).
  do 4 (apply Forall_cons; [unfold difference; cbn [fst snd]; apply Rabs_def1;
    match goal with |- context [ax - ?c] => match goal with |- context [ay - ?e] =>
      pose proof (S (ax - c) ltac:(split; lra)); pose proof (S (ay - e) ltac:(split; lra)); pose proof (S (bx - c) ltac:(split; lra)); pose proof (S (by_ - e) ltac:(split; lra)); lra end end|]).
  constructor.
Qed.
