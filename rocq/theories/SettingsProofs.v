From Verif Require Import PyBase SettingsModel SettingsSpec.

Arguments val_in : simpl never.

Lemma zlist_eqb_true a : forall b, zlist_eqb a b = true <-> a = b.
Proof.
  induction a as [|x a IH]; intros [|y b]; simpl; split; intros H; try easy.
  - apply andb_prop in H as [H1 H2]. apply Z.eqb_eq in H1. apply IH in H2. now subst.
  - inversion H; subst. rewrite Z.eqb_refl. now apply IH.
Qed.

Lemma val_eqb_true a b : val_eqb a b = true <-> a = b.
Proof.
  destruct a, b; simpl; split; intros H; try easy.
  - apply teq_true in H. now subst.
  - inversion H; subst. apply teq_refl.
  - apply zlist_eqb_true in H. now subst.
  - inversion H; subst. now apply zlist_eqb_true.
Qed.

Lemma val_eqb_refl a : val_eqb a a = true.
Proof. now apply val_eqb_true. Qed.

Lemma val_in2 v a b : val_in v [a; b] = true <-> v = a \/ v = b.
Proof.
  unfold val_in. simpl. rewrite orb_false_r, orb_true_iff, !val_eqb_true. reflexivity.
Qed.

Lemma val_in2_false v a b : val_in v [a; b] = false <-> ~ (v = a \/ v = b).
Proof.
  rewrite <- val_in2. destruct (val_in v [a; b]); split; intros; congruence.
Qed.

Lemma val_eq_dec (a b : val) : {a = b} + {a <> b}.
Proof.
  destruct (val_eqb a b) eqn:E; [left; now apply val_eqb_true|right].
  intros H. apply val_eqb_true in H. congruence.
Qed.

Definition complementary (s : settings) : Prop := opposite s.(zero_suppression) s.(zeros_).

Lemma opposite_set_zs v s : v = S "leading" \/ v = S "trailing" ->
  complementary (set_zero_suppression v s).
Proof. unfold complementary, opposite. intros [->| ->]; simpl; auto. Qed.

Lemma opposite_set_zeros v s : v = S "leading" \/ v = S "trailing" ->
  complementary (set_zeros v s).
Proof. unfold complementary, opposite. intros [->| ->]; simpl; auto. Qed.

Ltac settle_in :=
  repeat match goal with
  | |- context [negb (val_in ?v [?a; ?b])] =>
      let E := fresh "E" in destruct (val_in v [a; b]) eqn:E;
      [apply val_in2 in E | apply val_in2_false in E]; simpl negb; cbv iota
  | |- context [negb (Nat.eqb ?a ?b)] =>
      let E := fresh "E" in destruct (Nat.eqb_spec a b) as [E|E]; simpl negb; cbv iota
  end.

Lemma setitem_complementary s k v : complementary s -> complementary (fst (setitem s k v)).
Proof.
  intros H. unfold setitem.
  repeat match goal with |- context [if teq ?a ?b then _ else _] => destruct (teq a b) end;
    settle_in; simpl; auto using opposite_set_zs, opposite_set_zeros.
Qed.

Lemma init_zeros_spec zs zr s s' : init_zeros zs zr s = Ok s' ->
  complementary s' /\ s'.(notation) = s.(notation) /\ s'.(units) = s.(units) /\
  reported_zs zs zr s'.(zero_suppression) /\
  match zs, zr with
  | Some z, Some r => z <> r
  | None, Some r => valid_value "zeros" r
  | _, None => True
  end.
Proof.
  assert (Z : forall z, valid_value "zeros" (if val_in z [S "leading"; S "trailing"] then z else S "leading")
     /\ (valid_value "zero_suppression" z /\ (if val_in z [S "leading"; S "trailing"] then z else S "leading") = z \/
         ~ valid_value "zero_suppression" z /\ (if val_in z [S "leading"; S "trailing"] then z else S "leading") = S "leading")).
  { intros z. destruct (val_in z [S "leading"; S "trailing"]) eqn:Q.
    - apply val_in2 in Q. simpl. auto.
    - apply val_in2_false in Q. simpl. auto. }
  unfold init_zeros, reported_zs. destruct zs as [z|], zr as [r|].
  - destruct (val_eqb z r) eqn:E; [discriminate|]. intros H. apply ok_inj in H. subst s'.
    destruct (Z z) as [Z1 Z2]. split; [now apply opposite_set_zs|]. repeat split; auto.
    intros ->. now rewrite val_eqb_refl in E.
  - intros H. apply ok_inj in H. subst s'.
    destruct (Z z) as [Z1 Z2]. split; [now apply opposite_set_zs|]. repeat split; auto.
  - destruct (val_in r [S "leading"; S "trailing"]) eqn:R; [|discriminate].
    apply val_in2 in R. intros H. apply ok_inj in H. subst s'.
    split; [now apply opposite_set_zeros|]. repeat split; auto.
    unfold opposite. destruct R as [->| ->]; simpl; auto.
  - intros H. apply ok_inj in H. subst s'. split; [apply opposite_set_zs; auto|]. repeat split; auto.
Qed.

Lemma init_zeros_ok zs zr s :
  match zs, zr with
  | Some z, Some r => z <> r
  | None, Some r => valid_value "zeros" r
  | _, None => True
  end -> exists s', init_zeros zs zr s = Ok s'.
Proof.
  unfold init_zeros. destruct zs as [z|], zr as [r|]; intros H; eauto.
  - destruct (val_eqb z r) eqn:E; [apply val_eqb_true in E; contradiction|eauto].
  - simpl in H. apply val_in2 in H. rewrite H. eauto.
Qed.

Lemma init_zeros_err zs zr s e : init_zeros zs zr s = Err e -> e = ValueError.
Proof.
  unfold init_zeros. destruct zs as [z|], zr as [r|]; try discriminate.
  - destruct (val_eqb z r); [congruence|discriminate].
  - destruct (val_in r [S "leading"; S "trailing"]); [discriminate|congruence].
Qed.

Lemma ctor_inv n u zs f zr a s : file_settings n u zs f zr a = Ok s ->
  valid_value "notation" n /\ valid_value "units" u /\ valid_value "format" f /\
  valid_value "angle_units" a /\
  exists s0, init_zeros zs zr (mkSettings n u (S "") (S "") (S "") (S "")) = Ok s0 /\
             s = set_angle_units a (set_format f s0).
Proof.
  unfold file_settings. intros H.
  destruct (val_in n [S "absolute"; S "incremental"]) eqn:E1; [|discriminate].
  destruct (val_in u [S "inch"; S "metric"]) eqn:E2; [|discriminate]. cbv zeta in H. cbn [negb] in H.
  destruct (init_zeros zs zr _) as [s0|] eqn:E3; [|discriminate]. cbn [bind] in H.
  destruct (Nat.eqb_spec (val_len f) 2) as [E4|]; [|discriminate]. cbn [negb] in H.
  destruct (val_in a [S "degrees"; S "radians"]) eqn:E5; [|discriminate]. cbn [negb] in H.
  apply ok_inj in H. apply val_in2 in E1, E2, E5.
  repeat (split; [assumption|]). exists s0. auto.
Qed.

Lemma ctor_ok n u zs f zr a s0 :
  valid_value "notation" n -> valid_value "units" u -> valid_value "format" f ->
  valid_value "angle_units" a ->
  init_zeros zs zr (mkSettings n u (S "") (S "") (S "") (S "")) = Ok s0 ->
  file_settings n u zs f zr a = Ok (set_angle_units a (set_format f s0)).
Proof.
  intros E1 E2 E4 E5 E3. unfold file_settings.
  apply val_in2 in E1, E2, E5. rewrite E1, E2. cbv zeta. cbn [negb]. rewrite E3. cbn [bind].
  simpl in E4. rewrite E4, E5. reflexivity.
Qed.

Lemma ctor_err n u zs f zr a e : file_settings n u zs f zr a = Err e -> e = ValueError.
Proof.
  unfold file_settings.
  destruct (val_in n [S "absolute"; S "incremental"]); cbn [negb]; [|congruence].
  destruct (val_in u [S "inch"; S "metric"]); cbn [negb]; [|congruence].
  destruct (init_zeros zs zr _) as [s0|] eqn:E3; cbn [bind];
    [|intros H; apply init_zeros_err in E3; congruence].
  destruct (Nat.eqb (val_len f) 2); cbn [negb]; [|congruence].
  destruct (val_in a [S "degrees"; S "radians"]); cbn [negb]; [discriminate|congruence].
Qed.

Lemma ctor_complementary n u zs f zr a s : file_settings n u zs f zr a = Ok s -> complementary s.
Proof.
  intros H. apply ctor_inv in H as (_ & _ & _ & _ & s0 & H & ->).
  apply init_zeros_spec in H as [H _]. exact H.
Qed.

Lemma C09_lemma n u zs f zr a s0 ops :
  file_settings n u zs f zr a = Ok s0 -> Forall documented ops ->
  let s := fold_left run_assign ops s0 in
  exists z r, getitem s (T "zero_suppression") = Ok z /\ getitem s (T "zeros") = Ok r /\ opposite z r.
Proof.
  intros H D. assert (G : complementary (fold_left run_assign ops s0)).
  { apply ctor_complementary in H. revert s0 H. induction D as [|o ops Ho D IH]; intros s0 H; [auto|].
    simpl. apply IH. destruct o; simpl in *;
      auto using opposite_set_zs, opposite_set_zeros, setitem_complementary. }
  cbv zeta. exists (zero_suppression (fold_left run_assign ops s0)), (zeros_ (fold_left run_assign ops s0)).
  repeat split. exact G.
Qed.

(** ** C10 *)

Lemma key_cases k : In k known_keys \/ (forall n, In n key_names -> k <> T n).
Proof.
  destruct (in_dec (list_eq_dec ascii_dec) k known_keys) as [H|H]; [auto|right].
  intros n Hn ->. apply H. apply in_map_iff. exists n. auto.
Qed.

Lemma setitem_unknown s k v : (forall n, In n key_names -> k <> T n) ->
  setitem s k v = (s, Some KeyError).
Proof.
  intros H. unfold setitem.
  assert (E : forall n, In n key_names -> teq k (T n) = false) by (intros n Hn; apply teq_false; auto).
  rewrite !E by (simpl; tauto). reflexivity.
Qed.

Lemma C10_invalid_lemma s k v :
  In k key_names -> ~ valid_value k v -> setitem s (T k) v = (s, Some ValueError).
Proof.
  intros K H. simpl in K. repeat destruct K as [<-|K]; try contradiction;
    unfold setitem; simpl teq; cbv iota; settle_in; auto; contradiction.
Qed.

Lemma C10_unknown_lemma s k v :
  ~ In k known_keys -> setitem s k v = (s, Some KeyError) /\ getitem s k = Err KeyError.
Proof.
  intros H. destruct (key_cases k) as [C|C]; [contradiction|].
  split; [now apply setitem_unknown|].
  unfold getitem.
  assert (E : forall n, In n key_names -> teq k (T n) = false) by (intros n Hn; apply teq_false; auto).
  rewrite !E by (simpl; tauto). reflexivity.
Qed.

Lemma C10_valid_lemma s k v : In k key_names -> valid_value k v ->
  exists s', setitem s (T k) v = (s', None) /\
    getitem s' (T k) = Ok v /\
    (forall k', In k' key_names -> k' <> k -> ~ (is_zero_key k /\ is_zero_key k') ->
       getitem s' (T k') = getitem s (T k')) /\
    (forall k', is_zero_key k -> is_zero_key k' -> k' <> k ->
       exists w, getitem s' (T k') = Ok w /\ opposite v w).
Proof.
  intros K H. simpl in K. unfold is_zero_key, opposite.
  repeat destruct K as [<-|K]; try contradiction; unfold setitem; simpl teq; cbv iota; settle_in;
    try contradiction; eexists; (split; [reflexivity|]); (split; [reflexivity|]); split.
  all: intros k' K'.
  all: try (simpl in K'; intros Hne Hz;
            repeat destruct K' as [<-|K']; try contradiction; try reflexivity;
            exfalso; (apply Hne; reflexivity) || (apply Hz; split; auto)).
  all: try (destruct K'; discriminate).
  all: intros [->| ->] Hne; try (exfalso; apply Hne; reflexivity).
  all: eexists; split; [reflexivity|].
  all: destruct E as [->| ->]; simpl; auto.
Qed.

(** ** C11 *)

Lemma C11_lemma n u zs f zr a :
  (acceptable n u zs f zr a ->
   exists s z, file_settings n u zs f zr a = Ok s /\
     getitem s (T "notation") = Ok n /\ getitem s (T "units") = Ok u /\
     getitem s (T "format") = Ok f /\ getitem s (T "angle_units") = Ok a /\
     getitem s (T "zero_suppression") = Ok z /\ reported_zs zs zr z) /\
  (~ acceptable n u zs f zr a -> file_settings n u zs f zr a = Err ValueError).
Proof.
  unfold acceptable. split.
  - intros (Hn & Hu & Hf & Ha & Hz).
    destruct (init_zeros_ok zs zr (mkSettings n u (S "") (S "") (S "") (S "")) Hz) as [s0 E].
    rewrite (ctor_ok n u zs f zr a s0) by assumption.
    apply init_zeros_spec in E as (C & E1 & E2 & R & _).
    do 2 eexists. split; [reflexivity|].
    simpl in E1, E2. unfold getitem. simpl.
    split; [now rewrite E1|]. split; [now rewrite E2|].
    repeat (split; [reflexivity|]). exact R.
  - intros H. destruct (file_settings n u zs f zr a) as [s|e] eqn:E.
    + exfalso. apply H. apply ctor_inv in E as (H1 & H2 & H3 & H4 & s0 & E & _).
      apply init_zeros_spec in E as (_ & _ & _ & _ & Z). tauto.
    + apply ctor_err in E. congruence.
Qed.

(** ** C12 *)

(** Settings whose fields all hold documented values. *)
Definition all_valid (s : settings) : Prop :=
  valid_value "notation" s.(notation) /\ valid_value "units" s.(units) /\
  valid_value "zero_suppression" s.(zero_suppression) /\ valid_value "format" s.(format) /\
  opposite s.(zero_suppression) s.(zeros_).

Lemma cam_round_trip s : all_valid s ->
  exists c s', cam_init (Some s) = Ok c /\ cam_settings c = Ok s' /\
    s'.(notation) = s.(notation) /\ s'.(units) = s.(units) /\
    s'.(zero_suppression) = s.(zero_suppression) /\ s'.(zeros_) = s.(zeros_) /\
    s'.(format) = s.(format).
Proof.
  intros (Hn & Hu & Hz & Hf & Ho). unfold cam_init. simpl.
  assert (Hz' := Hz). simpl in Hz'. apply val_in2 in Hz'.
  do 2 eexists. split; [reflexivity|].
  unfold cam_settings. cbn [c_notation c_units c_zero_suppression c_format]. split.
  - apply ctor_ok; auto; [now left|]. unfold init_zeros. rewrite Hz'. reflexivity.
  - simpl. repeat split; auto. destruct Ho as [[-> ->]|[-> ->]]; reflexivity.
Qed.

Lemma ctor_valid n u zs f zr a s : file_settings n u zs f zr a = Ok s -> all_valid s.
Proof.
  intros H. pose proof (ctor_complementary _ _ _ _ _ _ _ H) as C.
  apply ctor_inv in H as (H1 & H2 & H3 & H4 & s0 & E & ->).
  apply init_zeros_spec in E as (_ & E1 & E2 & _ & _). simpl in E1, E2.
  unfold all_valid. unfold complementary in C. simpl in *. rewrite E1, E2.
  repeat (split; [assumption|]). split; [|split; assumption].
  destruct C as [[-> _]|[-> _]]; auto.
Qed.

Lemma setitem_valid s k v : all_valid s -> all_valid (fst (setitem s k v)).
Proof.
  intros (Hn & Hu & Hz & Hf & Ho).
  assert (C : complementary (fst (setitem s k v))) by now apply setitem_complementary.
  assert (Z : valid_value "zero_suppression" (zero_suppression (fst (setitem s k v))))
    by (simpl; destruct C as [[-> _]|[-> _]]; auto).
  repeat split; try exact C; try exact Z; clear C Z; unfold setitem;
  repeat match goal with |- context [if teq ?a ?b then _ else _] => destruct (teq a b) end;
    settle_in; simpl in *; auto.
Qed.

Definition run_item (s : settings) (kv : text * val) : settings := fst (setitem s (fst kv) (snd kv)).

Lemma C12_lemma n u zs f zr a s0 ops :
  file_settings n u zs f zr a = Ok s0 ->
  let s := fold_left (fun s kv => fst (setitem s (fst kv) (snd kv))) ops s0 in
  exists c s', cam_init (Some s) = Ok c /\ cam_settings c = Ok s' /\
    forall k, In k ["notation"; "units"; "zero_suppression"; "zeros"; "format"]%string ->
      getitem s' (T k) = getitem s (T k).
Proof.
  intros H. cbv zeta. set (s := fold_left _ ops s0).
  assert (V : all_valid s).
  { unfold s. clear s. apply ctor_valid in H. revert s0 H.
    induction ops as [|[k v] ops IH]; intros s0 H; [exact H|].
    simpl. apply IH. now apply setitem_valid. }
  destruct (cam_round_trip s V) as (c & s' & H1 & H2 & H3 & H4 & H5 & H6 & H7).
  exists c, s'. split; [auto|]. split; [auto|].
  intros k K. simpl in K. unfold getitem.
  repeat destruct K as [<-|K]; try contradiction; simpl; congruence.
Qed.

Lemma C12_refuted_lemma :
  exists n u zs f zr a s0 s c s',
    file_settings n u zs f zr a = Ok s0 /\ s = set_zero_suppression (S "none") s0 /\
    cam_init (Some s) = Ok c /\ cam_settings c = Ok s' /\
    getitem s' (T "zero_suppression") <> getitem s (T "zero_suppression").
Proof.
  exists (S "absolute"), (S "inch"), None, (VSeq [2; 5]%Z), None, (S "degrees").
  do 4 eexists. repeat (split; [vm_compute; reflexivity|]). vm_compute. discriminate.
Qed.

Lemma C66_lemma : forall n u zs f zr a s0 ops n' u' zs' f' zr' a' s0' ops',
  file_settings n u zs f zr a = Ok s0 -> Forall documented ops ->
  file_settings n' u' zs' f' zr' a' = Ok s0' -> Forall documented ops' ->
  let s := fold_left run_assign ops s0 in let s' := fold_left run_assign ops' s0' in
  settings_eq s s' = true <-> forall k, In k key_names -> getitem s (T k) = getitem s' (T k).
Proof.
  intros n u zs f zr a s0 ops n' u' zs' f' zr' a' s0' ops' H1 D1 H2 D2 s s'.
  destruct (C09_lemma _ _ _ _ _ _ _ _ H1 D1) as (z & r & A1 & A2 & A3). destruct (C09_lemma _ _ _ _ _ _ _ _ H2 D2) as (z' & r' & B1 & B2 & B3).
  fold s in A1, A2. fold s' in B1, B2.
  assert (G : forall x : settings, getitem x (T "notation") = Ok (notation x) /\ getitem x (T "units") = Ok (units x) /\ getitem x (T "zero_suppression") = Ok (zero_suppression x) /\
    getitem x (T "zeros") = Ok (zeros_ x) /\ getitem x (T "format") = Ok (format x) /\ getitem x (T "angle_units") = Ok (angle_units x)) by (intros; repeat split).
  destruct (G s) as (S1 & S2 & S3 & S4 & S5 & S6). destruct (G s') as (P1 & P2 & P3 & P4 & P5 & P6).
  rewrite S3 in A1. rewrite S4 in A2. rewrite P3 in B1. rewrite P4 in B2. injection A1 as A1. injection A2 as A2. injection B1 as B1. injection B2 as B2.
  unfold settings_eq. rewrite !Bool.andb_true_iff, !val_eqb_true. split.
  - intros ((((E1 & E2) & E3) & E4) & E5) k [<-|[<-|[<-|[<-|[<-|[<-|[]]]]]]].
    + now rewrite S1, P1, E1.
    + now rewrite S2, P2, E2.
    + now rewrite S3, P3, E3.
    + rewrite S4, P4. f_equal. rewrite A2, B2. rewrite A1, B1 in E3. unfold opposite in A3, B3.
      destruct A3 as [[X1 X2]|[X1 X2]], B3 as [[Y1 Y2]|[Y1 Y2]]; rewrite X1, Y1 in E3; rewrite X2, Y2; try reflexivity; exfalso; revert E3; vm_compute; discriminate.
    + now rewrite S5, P5, E4.
    + now rewrite S6, P6, E5.
  - intros H. pose proof (H "notation"%string) as Q1. pose proof (H "units"%string) as Q2. pose proof (H "zero_suppression"%string) as Q3.
    pose proof (H "format"%string) as Q4. pose proof (H "angle_units"%string) as Q5.
    rewrite S1, P1 in Q1. rewrite S2, P2 in Q2. rewrite S3, P3 in Q3. rewrite S5, P5 in Q4. rewrite S6, P6 in Q5.
    assert (O : forall (x y : val), Ok x = Ok y -> x = y) by (intros x y E; now injection E).
    repeat split; apply O; [apply Q1|apply Q2|apply Q3|apply Q4|apply Q5]; cbn; auto 10.
Qed.
