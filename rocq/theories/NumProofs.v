From Coq Require Import Lqa.
From Verif Require Import PyBase QcLib NumModel NumSpec.
Open Scope Qc_scope.

(** ** Link between specification and model vocabulary *)

Lemma ten_p10 k : ten k = zq (p10 k).
Proof.
  unfold ten. induction k.
  - symmetry. apply zq_1.
  - cbn [Qcpower]. rewrite IHk, p10_S, zq_mult. reflexivity.
Qed.

Lemma grid_dec k d : grid k d = dec k d.
Proof. unfold grid, dec. now rewrite ten_p10. Qed.

Lemma qabs_nonneg v : 0 <= qabs v.
Proof. unfold qabs. destruct (Qclt_le_dec v 0); qclra. Qed.

Lemma digit_in c : In c (T "0123456789") <-> is_digit c = true.
Proof.
  split.
  - intros H. simpl in H. repeat destruct H as [<-|H]; try reflexivity. contradiction.
  - intros H. rewrite <- (digit_val_chr c H). apply digit_val_range in H.
    remember (digit_val c) as d eqn:E. clear E.
    assert (D : (d = 0 \/ d = 1 \/ d = 2 \/ d = 3 \/ d = 4 \/ d = 5 \/ d = 6 \/ d = 7 \/ d = 8 \/ d = 9)%Z)
      by lia.
    repeat destruct D as [->|D]; try (subst; vm_compute; tauto).
Qed.

Lemma digit_string_iff s : digit_string s <-> all_digits s = true.
Proof.
  unfold digit_string, all_digits. rewrite forallb_forall, Forall_forall.
  split; intros H x Hx; apply digit_in; auto.
Qed.

Lemma positional_fold s : digit_string s -> forall a,
  positional s a = fold_left (fun a c => 10 * a + digit_val c)%Z s a.
Proof.
  induction 1 as [|c s Hc Hs IH]; intros a; [reflexivity|].
  cbn [positional fold_left]. rewrite IH. f_equal.
  simpl in Hc. repeat destruct Hc as [<-|Hc]; try contradiction;
    match goal with |- context [digit_val ?x] =>
      let v := eval vm_compute in (digit_val x) in change (digit_val x) with v end;
    cbv zeta; match goal with |- context [Z.of_nat ?x] =>
      let v := eval vm_compute in (Z.of_nat x) in change (Z.of_nat x) with v end; lia.
Qed.

Lemma int_of_dval s : digit_string s -> int_of s = dval s.
Proof. intros H. unfold int_of, dval. now apply positional_fold. Qed.

(** ** float() on digit strings *)

Lemma span_digits_all s r : all_digits s = true ->
  (match r with c :: _ => is_digit c = false | [] => True end) ->
  span_digits (s ++ r) = (s, r).
Proof.
  intros H Hr. induction s as [|c s IH].
  - destruct r as [|c r]; [reflexivity|]. simpl. now rewrite Hr.
  - cbn [all_digits forallb] in H. apply andb_prop in H as [H1 H2].
    simpl. rewrite H1, IH by auto. reflexivity.
Qed.

Lemma digit_not_space c : is_digit c = true -> is_space c = false.
Proof.
  unfold is_digit, is_space. intros H. apply andb_prop in H as [H1 H2].
  apply Nat.leb_le in H1, H2.
  apply orb_false_intro; apply andb_false_iff; right; apply Nat.leb_gt; lia.
Qed.

Lemma digit_neq c x : is_digit c = true -> is_digit x = false -> ceq c x = false.
Proof. intros H1 H2. apply ceq_false. intros ->. congruence. Qed.

Lemma lstrip_p_id p s : (match s with c :: _ => p c = false | [] => True end) -> lstrip_p p s = s.
Proof. destruct s; simpl; [auto|]. now intros ->. Qed.

Lemma strip_id s :
  (forall c, In c s -> is_space c = false) -> strip s = s.
Proof.
  intros H. unfold strip, strip_p, rstrip_p.
  rewrite (lstrip_p_id is_space s); [|destruct s; [auto|]; apply H; now left].
  rewrite lstrip_p_id; [apply rev_involutive|].
  destruct (rev s) as [|c r] eqn:E; [auto|]. apply H. apply in_rev. rewrite E. now left.
Qed.

Lemma all_digits_in s c : all_digits s = true -> In c s -> is_digit c = true.
Proof. intros H. unfold all_digits in H. rewrite forallb_forall in H. apply H. Qed.

Lemma py_float_decimal a b : all_digits a = true -> all_digits b = true -> a ++ b <> [] ->
  py_float (a ++ "."%char :: b) = Ok (dec (dval (a ++ b)) (List.length b)).
Proof.
  intros Ha Hb Hne. unfold py_float. rewrite strip_id.
  2:{ intros c Hc. apply in_app_or in Hc as [Hc|[<-|Hc]]; try reflexivity;
      apply digit_not_space; (eapply all_digits_in; [|exact Hc]; auto). }
  assert (U : py_float_unsigned (a ++ "."%char :: b) = Ok (dec (dval (a ++ b)) (List.length b))).
  { unfold py_float_unsigned. rewrite span_digits_all by (auto; reflexivity).
    rewrite ceq_refl. rewrite <- (app_nil_r b) at 1. rewrite span_digits_all by auto.
    destruct (a ++ b); [contradiction|]. reflexivity. }
  destruct a as [|c a].
  - exact U.
  - cbn [app]. cbn [all_digits forallb] in Ha. apply andb_prop in Ha as [Hc _].
    rewrite !digit_neq by (auto; reflexivity). exact U.
Qed.

(** ** Reading digit strings *)

Definition sgn (neg : bool) (v : Qc) : Qc := if neg then - v else v.
Definition sign_text (neg : bool) : text := if neg then T "-" else [].

Lemma char_in_digits c s : all_digits s = true -> is_digit c = false -> char_in c s = false.
Proof.
  intros H Hc. apply char_in_false. intros Hi. apply (all_digits_in _ _ H) in Hi. congruence.
Qed.

Lemma lstrip_digits c s : all_digits s = true -> is_digit c = false -> lstrip c s = s.
Proof.
  destruct s as [|x s]; [reflexivity|]. cbn [all_digits forallb]. intros H Hc.
  apply andb_prop in H as [H1 _]. simpl. now rewrite digit_neq.
Qed.

Lemma lstrip_repeat_digits c n s : all_digits s = true -> is_digit c = false ->
  lstrip c (repeat c n ++ s) = s.
Proof.
  intros H Hc. induction n; [now apply lstrip_digits|]. simpl. now rewrite ceq_refl.
Qed.

Lemma good_precision i d : (i <= 6)%nat -> (d <= 7)%nat -> bad_precision (i, d) = false.
Proof.
  intros Hi Hd. unfold bad_precision.
  repeat (apply orb_false_intro); apply Nat.ltb_ge; lia.
Qed.

Definition padded (i d : nat) (zs : zmode) (s : text) : text :=
  match zs with
  | Trailing => s ++ zeros (i + d - List.length s)
  | Leading => zeros (i + d - List.length s) ++ s
  | NoSupp => s
  end.

Lemma padded_digits i d zs s : all_digits s = true -> all_digits (padded i d zs s) = true.
Proof.
  intros H. destruct zs; simpl; rewrite ?all_digits_app, ?zeros_digits, ?H; reflexivity.
Qed.

Lemma firstn_digits n s : all_digits s = true -> all_digits (firstn n s) = true.
Proof.
  intros H. rewrite <- (firstn_skipn n s), all_digits_app in H.
  now apply andb_prop in H.
Qed.
Lemma skipn_digits n s : all_digits s = true -> all_digits (skipn n s) = true.
Proof.
  intros H. rewrite <- (firstn_skipn n s), all_digits_app in H.
  now apply andb_prop in H.
Qed.

(** [plus] is any run of '+', [minus] any run of '-'. *)
Lemma parse_digits_gen np nm s i d zs :
  (i <= 6)%nat -> (d <= 7)%nat -> all_digits s = true ->
  padded i d zs s <> [] ->
  parse_gerber_value (repeat "+"%char np ++ repeat "-"%char nm ++ s) (i, d) zs =
  Ok (sgn (0 <? nm)%nat (dec (dval (padded i d zs s)) (List.length (padded i d zs s) - i))).
Proof.
  intros Hi Hd Hs Hne. unfold parse_gerber_value, parse_gerber_value_with.
  assert (Hdot : char_in "."%char (repeat "+"%char np ++ repeat "-"%char nm ++ s) = false).
  { rewrite !char_in_app.
    rewrite (char_in_digits _ s) by auto.
    assert (R : forall x n, x <> "."%char -> char_in "."%char (repeat x n) = false).
    { intros x n Hx. apply char_in_false. intros Hin. apply repeat_spec in Hin. congruence. }
    rewrite !R by discriminate. reflexivity. }
  rewrite Hdot, good_precision by auto.
  assert (L : lstrip "+"%char (repeat "+"%char np ++ repeat "-"%char nm ++ s)
              = repeat "-"%char nm ++ s).
  { induction np; simpl.
    - destruct nm; simpl; [now apply lstrip_digits|reflexivity].
    - exact (IHnp ltac:(clear - Hdot; unfold char_in in *; simpl in *; exact Hdot)). }
  rewrite L.
  assert (N : char_in "-"%char (repeat "-"%char nm ++ s) = (0 <? nm)%nat).
  { rewrite char_in_app, (char_in_digits _ s), orb_false_r by auto.
    destruct nm; reflexivity. }
  rewrite N. fold (sgn (0 <? nm)%nat).
  assert (V : (if (0 <? nm)%nat then lstrip "-"%char (repeat "-"%char nm ++ s)
               else repeat "-"%char nm ++ s) = s).
  { destruct nm; [reflexivity|]. simpl Nat.ltb. cbv iota.
    now apply lstrip_repeat_digits. }
  rewrite V. fold (padded i d zs s).
  set (p := padded i d zs s) in *.
  change (match zs with
          | Leading => zeros (i + d - Datatypes.length s) ++ s
          | Trailing => s ++ zeros (i + d - Datatypes.length s)
          | NoSupp => s end) with p.
  rewrite py_float_decimal.
  - rewrite firstn_skipn, skipn_length. reflexivity.
  - apply firstn_digits, padded_digits, Hs.
  - apply skipn_digits, padded_digits, Hs.
  - now rewrite firstn_skipn.
Qed.

Lemma parse_leading np nm s i d :
  (i <= 6)%nat -> (d <= 7)%nat -> (1 <= i + d)%nat -> all_digits s = true ->
  (List.length s <= i + d)%nat ->
  parse_gerber_value (repeat "+"%char np ++ repeat "-"%char nm ++ s) (i, d) Leading =
  Ok (sgn (0 <? nm)%nat (dec (dval s) d)).
Proof.
  intros Hi Hd H1 Hs Hl.
  assert (Len : List.length (padded i d Leading s) = (i + d)%nat)
    by (simpl; rewrite app_length, zeros_length; lia).
  rewrite parse_digits_gen; auto.
  2:{ intros E. rewrite E in Len. simpl in Len. lia. }
  rewrite Len. simpl padded. rewrite dval_app, dval_zeros.
  replace (i + d - i)%nat with d by lia. reflexivity.
Qed.

Lemma parse_trailing np nm s i d :
  (i <= 6)%nat -> (d <= 7)%nat -> (1 <= i + d)%nat -> all_digits s = true ->
  (List.length s <= i + d)%nat ->
  parse_gerber_value (repeat "+"%char np ++ repeat "-"%char nm ++ s) (i, d) Trailing =
  Ok (sgn (0 <? nm)%nat (dec (dval s * p10 (i + d - List.length s)) d)).
Proof.
  intros Hi Hd H1 Hs Hl.
  assert (Len : List.length (padded i d Trailing s) = (i + d)%nat)
    by (simpl; rewrite app_length, zeros_length; lia).
  rewrite parse_digits_gen; auto.
  2:{ intros E. rewrite E in Len. simpl in Len. lia. }
  rewrite Len. simpl padded. rewrite dval_app, dval_zeros, zeros_length, Z.add_0_r.
  replace (i + d - i)%nat with d by lia. reflexivity.
Qed.

Lemma parse_none np nm s i d :
  (i <= 6)%nat -> (d <= 7)%nat -> s <> [] -> all_digits s = true ->
  parse_gerber_value (repeat "+"%char np ++ repeat "-"%char nm ++ s) (i, d) NoSupp =
  Ok (sgn (0 <? nm)%nat (dec (dval s) (List.length s - i))).
Proof. intros. now rewrite parse_digits_gen. Qed.

(** ** Rounding *)

Lemma rhe_spec v : qabs (v - zq (rhe v)) <= Q2Qc (1 # 2) /\
  ((v - zq (rhe v) = Q2Qc (1 # 2) \/ v - zq (rhe v) = - Q2Qc (1 # 2)) -> Z.even (rhe v) = true).
Proof.
  unfold rhe. destruct v as [[n m] Hc]. simpl Qnum; simpl Qden.
  set (v := {| this := n # m; canon := Hc |}).
  assert (Tv : forall z, (this (v - zq z) == (n - z * Zpos m) # m)%Q).
  { intros z. rewrite this_minus, this_zq. unfold Qeq, inject_Z, Qminus, Qplus, Qopp; simpl. nia. }
  pose proof (Z.div_mod n (Zpos m) ltac:(lia)) as DM.
  pose proof (Z.mod_pos_bound n (Zpos m) ltac:(lia)) as MB.
  set (f := (n / Zpos m)%Z) in *. set (r := (n mod Zpos m)%Z) in *.
  assert (A : forall z, (- Zpos m <= 2 * (n - z * Zpos m) <= Zpos m)%Z ->
              qabs (v - zq z) <= Q2Qc (1 # 2)).
  { intros z Hz. unfold qabs. destruct (Qclt_le_dec (v - zq z) 0).
    - unfold Qcle. rewrite this_opp, this_Q2Qc, Tv. unfold Qle; simpl. nia.
    - unfold Qcle. rewrite this_Q2Qc, Tv. unfold Qle; simpl. nia. }
  assert (B : forall z, v - zq z = Q2Qc (1 # 2) -> (2 * (n - z * Zpos m) = Zpos m)%Z).
  { intros z H. apply qc_eq_iff in H. rewrite this_Q2Qc, Tv in H. unfold Qeq in H; simpl in H. lia. }
  assert (C : forall z, v - zq z = - Q2Qc (1 # 2) -> (2 * (n - z * Zpos m) = - Zpos m)%Z).
  { intros z H. apply qc_eq_iff in H. rewrite this_opp, this_Q2Qc, Tv in H.
    unfold Qeq in H; simpl in H. lia. }
  destruct (Z.ltb_spec (2 * r) (Zpos m)) as [L|L].
  - split; [apply A; nia|]. intros [H|H]; [apply B in H|apply C in H]; nia.
  - destruct (Z.ltb_spec (Zpos m) (2 * r)) as [L2|L2].
    + split; [apply A; nia|]. intros [H|H]; [apply B in H|apply C in H]; nia.
    + destruct (Z.even f) eqn:E.
      * split; [apply A; nia|]. auto.
      * split; [apply A; nia|]. intros _. rewrite Z.even_add, E. reflexivity.
Qed.

Lemma rhe_bounds v : zq (rhe v) - Q2Qc (1 # 2) <= v /\ v <= zq (rhe v) + Q2Qc (1 # 2).
Proof.
  destruct (rhe_spec v) as [H _]. unfold qabs in H.
  destruct (Qclt_le_dec (v - zq (rhe v)) 0); split; qclra.
Qed.

Lemma zq_half_lt a b : zq a < zq b + Q2Qc (1 # 2) -> (a <= b)%Z.
Proof.
  intros H. destruct (Z.le_gt_cases a b) as [L|L]; [auto|exfalso].
  assert (G : zq (b + 1) <= zq a) by (apply zq_le; lia).
  rewrite zq_plus, zq_1 in G. qclra.
Qed.

Lemma rhe_unique v n : zq n - Q2Qc (1 # 2) < v -> v < zq n + Q2Qc (1 # 2) -> rhe v = n.
Proof.
  intros H1 H2. destruct (rhe_bounds v) as [B1 B2].
  assert (E1 : (rhe v <= n)%Z \/ (rhe v >= n + 1)%Z) by lia.
  assert (E2 : (rhe v >= n)%Z \/ (rhe v <= n - 1)%Z) by lia.
  destruct E1 as [E1|E1].
  - destruct E2 as [E2|E2]; [lia|exfalso].
    assert (G : zq (rhe v) <= zq (n - 1)) by (apply zq_le; lia).
    rewrite zq_minus, zq_1 in G. qclra.
  - exfalso. assert (G : zq (n + 1) <= zq (rhe v)) by (apply zq_le; lia).
    rewrite zq_plus, zq_1 in G. qclra.
Qed.

Lemma rhe_zq n : rhe (zq n) = n.
Proof. apply rhe_unique; qclra. Qed.

Lemma rhe_mono a b : a <= b -> (rhe a <= rhe b)%Z.
Proof.
  intros H. destruct (Z.le_gt_cases (rhe a) (rhe b)) as [L|L]; [auto|exfalso].
  destruct (rhe_bounds a) as [A1 A2]. destruct (rhe_bounds b) as [B1 B2].
  assert (G : zq (rhe b + 1) <= zq (rhe a)) by (apply zq_le; lia).
  rewrite zq_plus, zq_1 in G.
  assert (E : a = b) by (apply qc_eq_iff; apply Qle_antisym; [exact H|]; qclra).
  subst. lia.
Qed.

Lemma rhe_nonneg v : 0 <= v -> (0 <= rhe v)%Z.
Proof. intros H. rewrite <- (rhe_zq 0). apply rhe_mono. now rewrite zq_0. Qed.

Lemma rhe_0_iff v : 0 <= v -> (rhe v = 0%Z <-> v <= Q2Qc (1 # 2)).
Proof.
  intros H. destruct (rhe_spec v) as [_ T]. destruct (rhe_bounds v) as [B1 B2]. split; intros G.
  - rewrite G, zq_0 in *. qclra.
  - destruct (Z.eq_dec (rhe v) 0) as [E|E]; [auto|exfalso].
    pose proof (rhe_nonneg v H).
    assert (L : zq 1 <= zq (rhe v)) by (apply zq_le; lia). rewrite zq_1 in L.
    assert (E1 : zq (rhe v) = 1) by (apply qc_eq_iff; apply Qle_antisym; qclra).
    assert (E2 : v - zq (rhe v) = - Q2Qc (1 # 2))
      by (rewrite E1 in *; apply qc_eq_iff; apply Qle_antisym; qclra).
    rewrite <- zq_1 in E1. apply zq_inj in E1. rewrite E1 in T, E2.
    specialize (T (or_intror E2)). discriminate.
Qed.

(** ** Writing *)

Definition scaled (v : Qc) (d : nat) : Z := rhe (qabs v * zq (p10 d)).
Definition is_neg (v : Qc) : bool := qclt v 0.

Lemma qabs_if v : (if qclt v 0 then - v else v) = qabs v.
Proof.
  unfold qabs. destruct (qclt_spec v 0), (Qclt_le_dec v 0); auto.
  - apply Qcle_not_lt in q0. contradiction.
  - contradiction.
Qed.

Lemma scaled_nonneg v d : (0 <= scaled v d)%Z.
Proof.
  apply rhe_nonneg. pose proof (qabs_nonneg v). pose proof (zq_p10_pos d).
  replace 0 with (0 * zq (p10 d)) by ring. now apply qc_mult_le_r.
Qed.

Lemma half_ulp_scaled d : half_ulp d * zq (p10 d) = Q2Qc (1 # 2).
Proof. unfold half_ulp. rewrite ten_p10. field. apply zq_p10_nonzero. Qed.

Lemma fits_scaled i d v : fits i d v -> (scaled v d < p10 (i + d))%Z.
Proof.
  unfold fits. intros H. rewrite ten_p10 in H.
  pose proof (zq_p10_pos d) as P.
  assert (G : (qabs v + half_ulp d) * zq (p10 d) < zq (p10 i) * zq (p10 d))
    by (apply Qcmult_lt_compat_r; auto).
  replace ((qabs v + half_ulp d) * zq (p10 d)) with
    (qabs v * zq (p10 d) + half_ulp d * zq (p10 d)) in G by ring.
  rewrite half_ulp_scaled, <- zq_mult, <- p10_add in G.
  unfold scaled. destruct (rhe_bounds (qabs v * zq (p10 d))) as [B1 B2].
  assert (L : zq (rhe (qabs v * zq (p10 d))) < zq (p10 (i + d))) by qclra.
  exact (proj1 (zq_lt _ _) L).
Qed.

Lemma filter_dot_digits s : all_digits s = true ->
  filter (fun c => negb (ceq c "."%char)) s = s.
Proof.
  induction s as [|c s IH]; [auto|]. cbn [all_digits forallb]. intros H.
  apply andb_prop in H as [H1 H2]. simpl. rewrite digit_neq by auto. simpl. now rewrite IH.
Qed.

Lemma fmt_digits i d v : (1 <= i)%nat -> (1 <= d)%nat ->
  (0 <= rhe (v * zq (p10 d)) < p10 (i + d))%Z ->
  filter (fun c => negb (ceq c "."%char)) (py_fmt_f (i + d + 1) d v)
  = dig (i + d) (rhe (v * zq (p10 d))).
Proof.
  intros Hi Hd H. unfold py_fmt_f. set (n := rhe (v * zq (p10 d))) in *.
  destruct d as [|d']; [lia|]. set (d := S d') in *.
  assert (Q : (0 <= n / p10 d < p10 i)%Z).
  { pose proof (p10_pos d). split; [apply Z.div_pos; lia|].
    apply Z.div_lt_upper_bound; [lia|]. rewrite p10_add in H. lia. }
  assert (Hn : (ndig (n / p10 d) <= i)%nat) by (apply ndig_le; [exact Q|auto]).
  rewrite !filter_app. rewrite filter_dot_digits by apply zeros_digits.
  rewrite (filter_dot_digits (show_nat _)) by apply show_nat_digits.
  cbn [filter]. rewrite ceq_refl. simpl negb. cbv iota.
  rewrite filter_dot_digits by apply dig_digits.
  rewrite app_length. cbn [List.length]. unfold show_nat. rewrite !dig_length.
  rewrite dig_split. rewrite app_assoc. f_equal.
  replace (i + d + 1 - (ndig (n / p10 d) + S d))%nat with (i - ndig (n / p10 d))%nat by lia.
  rewrite <- dig_small.
  - f_equal. lia.
  - split; [lia|]. apply ndig_bound. lia.
Qed.

Lemma digit_sum_0 s : all_digits s = true -> (digit_sum s = 0%Z <-> dval s = 0%Z).
Proof.
  intros H. assert (G : (0 <= digit_sum s)%Z /\ (digit_sum s = 0%Z <-> dval s = 0%Z)); [|tauto].
  induction s as [|c s IH]; [easy|]. cbn [all_digits forallb] in H.
  apply andb_prop in H as [H1 H2]. specialize (IH H2) as [I1 I2].
  rewrite dval_cons. cbn [digit_sum fold_right]. fold (digit_sum s).
  apply digit_val_range in H1. pose proof (dval_nonneg s H2).
  pose proof (p10_pos (List.length s)). unfold p10 in *. split; [lia|]. split; intros G.
  - assert (E1 : digit_val c = 0%Z) by lia. assert (E2 : digit_sum s = 0%Z) by lia.
    apply I2 in E2. rewrite E1, E2. lia.
  - assert (E2 : dval s = 0%Z) by nia. rewrite E2 in G.
    assert (E1 : digit_val c = 0%Z) by nia. apply I2 in E2. lia.
Qed.

Lemma lstrip_zero_split s : exists k, s = zeros k ++ lstrip_p (ceq "0"%char) s.
Proof.
  induction s as [|c s [k IH]]; [now exists 0%nat|].
  cbn [lstrip_p]. destruct (ceq_spec "0"%char c) as [<-|E].
  - exists (S k). simpl. f_equal. exact IH.
  - now exists 0%nat.
Qed.

Lemma lstrip_zero_head s c r : lstrip_p (ceq "0"%char) s = c :: r -> c <> "0"%char.
Proof.
  induction s as [|x s IH]; simpl; [discriminate|].
  destruct (ceq_spec "0"%char x) as [E|E]; [auto|]. intros H. inversion H; subst. congruence.
Qed.

Lemma zeros_rev k : rev (zeros k) = zeros k.
Proof.
  unfold zeros. induction k; [auto|]. simpl. rewrite IHk. symmetry. apply (repeat_cons k "0"%char).
Qed.

Lemma rstrip_zero_split s : exists k, s = rstrip_p (ceq "0"%char) s ++ zeros k.
Proof.
  destruct (lstrip_zero_split (rev s)) as [k H]. exists k.
  unfold rstrip_p. rewrite <- (rev_involutive s) at 1. rewrite H at 1.
  rewrite rev_app_distr, zeros_rev. reflexivity.
Qed.

Lemma rstrip_zero_last s r c : rstrip_p (ceq "0"%char) s = r ++ [c] -> c <> "0"%char.
Proof.
  unfold rstrip_p. intros H. apply (f_equal (@rev _)) in H.
  rewrite rev_involutive, rev_app_distr in H. simpl in H. eapply lstrip_zero_head; eauto.
Qed.

(** Characterisation of the written digits. *)
Definition suppress (zs : zmode) (s : text) : text :=
  match zs with
  | Trailing => rstrip_p (ceq "0"%char) s
  | Leading => lstrip_p (ceq "0"%char) s
  | NoSupp => s
  end.

Lemma suppress_sub zs s : all_digits s = true ->
  all_digits (suppress zs s) = true /\ (List.length (suppress zs s) <= List.length s)%nat.
Proof.
  intros H. destruct zs; simpl.
  - destruct (lstrip_zero_split s) as [k E].
    split; [|apply (f_equal (@List.length _)) in E; rewrite app_length in E; lia].
    rewrite E, all_digits_app in H. now apply andb_prop in H.
  - destruct (rstrip_zero_split s) as [k E].
    split; [|apply (f_equal (@List.length _)) in E; rewrite app_length in E; lia].
    rewrite E, all_digits_app in H. now apply andb_prop in H.
  - split; auto.
Qed.

Lemma suppress_nonempty zs s : dval s <> 0%Z -> suppress zs s <> [].
Proof.
  intros H E. apply H. destruct zs; simpl in E.
  - destruct (lstrip_zero_split s) as [k ->]. rewrite E, app_nil_r. apply dval_zeros.
  - destruct (rstrip_zero_split s) as [k ->]. rewrite E. apply dval_zeros.
  - now rewrite E.
Qed.

Lemma write_zero_scaled v d : v = 0 -> scaled v d = 0%Z.
Proof.
  intros ->. unfold scaled. replace (qabs 0 * zq (p10 d)) with (zq 0); [apply rhe_zq|].
  rewrite zq_0. unfold qabs. destruct (Qclt_le_dec 0 0); ring.
Qed.

Lemma write_spec v i d zs : usable_format i d -> (scaled v d < p10 (i + d))%Z ->
  write_gerber_value v (i, d) zs =
  Ok (if (scaled v d =? 0)%Z then T "0"
      else sign_text (is_neg v) ++ suppress zs (dig (i + d) (scaled v d))).
Proof.
  intros [Hi Hd] Hf. unfold write_gerber_value. rewrite good_precision by lia.
  destruct (qceq_spec v 0) as [Ev|Ev].
  { rewrite (write_zero_scaled v d Ev). reflexivity. }
  rewrite qabs_if. fold (scaled v d).
  pose proof (scaled_nonneg v d) as Hn.
  assert (FD := fmt_digits i d (qabs v) ltac:(lia) ltac:(lia) (conj Hn Hf)).
  fold (scaled v d) in FD. rewrite FD.
  set (n := scaled v d) in *.
  assert (DV : dval (dig (i + d) n) = n) by (rewrite dval_dig, Z.mod_small; auto).
  destruct (Z.eqb_spec n 0) as [E|E].
  - assert (S0 : digit_sum (dig (i + d) n) = 0%Z)
      by (apply digit_sum_0; [apply dig_digits|]; rewrite DV; auto).
    rewrite S0. reflexivity.
  - assert (S0 : (digit_sum (dig (i + d) n) =? 0)%Z = false).
    { apply Z.eqb_neq. rewrite digit_sum_0 by apply dig_digits. now rewrite DV. }
    rewrite S0. fold (suppress zs (dig (i + d) n)).
    change (match zs with
            | Leading => lstrip_p (ceq "0"%char) (dig (i + d) n)
            | Trailing => rstrip_p (ceq "0"%char) (dig (i + d) n)
            | NoSupp => dig (i + d) n end) with (suppress zs (dig (i + d) n)).
    pose proof (suppress_nonempty zs (dig (i + d) n) ltac:(rewrite DV; auto)) as NE.
    destruct (suppress zs (dig (i + d) n)) as [|c r] eqn:SE; [contradiction|].
    unfold is_neg, sign_text. destruct (qclt v 0); reflexivity.
Qed.

(** What parsing the suppressed digits gives. *)
Lemma parse_suppressed neg n i d zs : usable_format i d -> (0 <= n < p10 (i + d))%Z -> n <> 0%Z ->
  parse_gerber_value (sign_text neg ++ suppress zs (dig (i + d) n)) (i, d) zs = Ok (sgn neg (dec n d)).
Proof.
  intros [Hi Hd] Hn N0.
  assert (DV : dval (dig (i + d) n) = n) by (rewrite dval_dig, Z.mod_small; auto).
  pose proof (suppress_sub zs (dig (i + d) n) (dig_digits _ _)) as [SD SL].
  rewrite dig_length in SL.
  assert (SG : sign_text neg = repeat "+"%char 0 ++ repeat "-"%char (if neg then 1 else 0))
    by (destruct neg; reflexivity).
  rewrite SG, <- app_assoc.
  assert (NG : (0 <? (if neg then 1 else 0))%nat = neg) by (destruct neg; reflexivity).
  destruct zs; simpl suppress in *.
  - rewrite parse_leading by (auto; lia). rewrite NG. do 3 f_equal.
    destruct (lstrip_zero_split (dig (i + d) n)) as [k E].
    rewrite E, dval_app, dval_zeros in DV. lia.
  - rewrite parse_trailing by (auto; lia). rewrite NG. do 3 f_equal.
    destruct (rstrip_zero_split (dig (i + d) n)) as [k E].
    pose proof (f_equal (@List.length _) E) as EL.
    rewrite dig_length, app_length, zeros_length in EL.
    rewrite E, dval_app, dval_zeros, zeros_length in DV.
    set (m := List.length (rstrip_p (ceq "0"%char) (dig (i + d) n))) in *.
    replace (i + d - m)%nat with k by lia. unfold p10. lia.
  - rewrite parse_none by (auto; try lia; intros E;
      apply (f_equal (@List.length _)) in E; rewrite dig_length in E; simpl in E; lia).
    rewrite NG, DV, dig_length. do 3 f_equal. lia.
Qed.

Lemma parse_text_0 i d zs : usable_format i d -> parse_gerber_value (T "0") (i, d) zs = Ok 0.
Proof.
  intros [Hi Hd].
  assert (Z0 : forall k, dec 0 k = 0)
    by (intros k; symmetry; apply dec_eq; rewrite zq_0; ring).
  change (T "0") with (repeat "+"%char 0 ++ repeat "-"%char 0 ++ T "0").
  destruct zs.
  - rewrite parse_leading by (auto; simpl; lia). simpl sgn. f_equal. apply Z0.
  - rewrite parse_trailing by (auto; simpl; lia). simpl sgn. f_equal.
    change (dval (T "0")) with 0%Z. apply Z0.
  - rewrite parse_none by (auto; try lia; discriminate). simpl sgn. f_equal. apply Z0.
Qed.

Definition readback (v : Qc) (d : nat) : Qc := sgn (is_neg v) (dec (scaled v d) d).

Lemma write_parse v i d zs : usable_format i d -> (scaled v d < p10 (i + d))%Z ->
  exists s, write_gerber_value v (i, d) zs = Ok s /\
            parse_gerber_value s (i, d) zs = Ok (readback v d).
Proof.
  intros U F. rewrite write_spec by auto. eexists; split; [reflexivity|].
  pose proof (scaled_nonneg v d) as N. unfold readback.
  destruct (Z.eqb_spec (scaled v d) 0) as [E|E].
  - rewrite parse_text_0 by auto. rewrite E. f_equal.
    assert (dec 0 d = 0) as -> by (symmetry; apply dec_eq; rewrite zq_0; ring).
    unfold sgn. destruct (is_neg v); ring.
  - now apply parse_suppressed.
Qed.

(** ** C01 *)

Lemma sgn_qabs v : sgn (is_neg v) (qabs v) = v.
Proof.
  unfold sgn, is_neg. rewrite <- qabs_if. destruct (qclt v 0); [apply Qcopp_involutive|reflexivity].
Qed.

Lemma qabs_dec k d : qabs (dec k d) = dec (Z.abs k) d.
Proof.
  assert (Z0 : dec 0 d = 0) by (symmetry; apply dec_eq; rewrite zq_0; ring).
  unfold qabs. destruct (Qclt_le_dec (dec k d) 0) as [H|H].
  - rewrite <- dec_opp. f_equal.
    destruct (Z.le_gt_cases 0 k) as [L|L]; [|lia].
    apply (dec_le _ _ d) in L. rewrite Z0 in L. apply Qcle_not_lt in L. contradiction.
  - f_equal. rewrite <- Z0 in H. apply dec_le in H. lia.
Qed.

Lemma scaled_dec k d : scaled (dec k d) d = Z.abs k.
Proof. unfold scaled. rewrite qabs_dec, dec_mult. apply rhe_zq. Qed.

Lemma readback_grid k d : readback (dec k d) d = dec k d.
Proof. unfold readback. rewrite scaled_dec, <- qabs_dec. apply sgn_qabs. Qed.

Lemma C01_lemma i d zs k : usable_format i d -> (Z.abs k < 10 ^ Z.of_nat (i + d))%Z ->
  exists s, write_gerber_value (grid k d) (i, d) zs = Ok s /\
            parse_gerber_value s (i, d) zs = Ok (grid k d).
Proof.
  intros U K. rewrite grid_dec.
  destruct (write_parse (dec k d) i d zs U) as [s [H1 H2]].
  { rewrite scaled_dec. exact K. }
  exists s. split; [exact H1|]. now rewrite H2, readback_grid.
Qed.

(** ** C02 *)

Lemma readback_close v d : qabs (v - readback v d) <= half_ulp d.
Proof.
  pose proof (zq_p10_pos d) as P.
  unfold readback. rewrite <- (sgn_qabs v) at 1.
  set (a := qabs v).
  assert (H : forall neg, qabs (sgn neg a - sgn neg (dec (scaled v d) d))
              = qabs (a - dec (scaled v d) d)).
  { intros [|]; simpl; [|reflexivity]. unfold qabs.
    destruct (Qclt_le_dec _ 0) as [A|A], (Qclt_le_dec (a - _) 0) as [B|B]; try ring; qclra. }
  rewrite H. clear H. apply (qc_mult_le_r _ _ _ P). rewrite half_ulp_scaled.
  unfold scaled. fold a. destruct (rhe_bounds (a * zq (p10 d))) as [B1 B2].
  set (n := rhe (a * zq (p10 d))) in *.
  unfold qabs. destruct (Qclt_le_dec (a - dec n d) 0).
  - replace (- (a - dec n d) * zq (p10 d)) with (dec n d * zq (p10 d) - a * zq (p10 d)) by ring.
    rewrite dec_mult. qclra.
  - replace ((a - dec n d) * zq (p10 d)) with (a * zq (p10 d) - dec n d * zq (p10 d)) by ring.
    rewrite dec_mult. qclra.
Qed.

Lemma C02_lemma i d zs v : usable_format i d -> fits i d v ->
  exists s w, write_gerber_value v (i, d) zs = Ok s /\
              parse_gerber_value s (i, d) zs = Ok w /\
              qabs (v - w) <= half_ulp d.
Proof.
  intros U F. apply fits_scaled in F.
  destruct (write_parse v i d zs U F) as [s [H1 H2]].
  exists s, (readback v d). repeat split; auto. apply readback_close.
Qed.

(** ** C03 *)

Lemma scaled_0_iff v d : scaled v d = 0%Z <-> qabs v <= half_ulp d.
Proof.
  unfold scaled. pose proof (zq_p10_pos d) as P.
  rewrite rhe_0_iff.
  - rewrite <- (half_ulp_scaled d). symmetry. now apply qc_mult_le_r.
  - replace 0 with (0 * zq (p10 d)) by ring. apply qc_mult_le_r; [auto|]. apply qabs_nonneg.
Qed.

Lemma C03_lemma i d zs v : usable_format i d -> fits i d v ->
  exists s, write_gerber_value v (i, d) zs = Ok s /\
  ((qabs v <= half_ulp d /\ s = T "0") \/
   (half_ulp d < qabs v /\
    exists ds, digits_shape i d zs ds /\ s = (if Qclt_le_dec v 0 then T "-" else []) ++ ds)).
Proof.
  intros U F. apply fits_scaled in F. rewrite write_spec by auto. eexists; split; [reflexivity|].
  pose proof (scaled_nonneg v d) as N.
  destruct (Z.eqb_spec (scaled v d) 0) as [E|E].
  - left. split; [now apply scaled_0_iff|reflexivity].
  - right. split. { apply Qcnot_le_lt. now rewrite <- scaled_0_iff. }
    set (n := scaled v d) in *.
    assert (DV : dval (dig (i + d) n) = n) by (rewrite dval_dig, Z.mod_small; auto).
    exists (suppress zs (dig (i + d) n)). split.
    + pose proof (suppress_sub zs (dig (i + d) n) (dig_digits _ _)) as [SD SL].
      rewrite dig_length in SL. repeat split.
      * apply suppress_nonempty. now rewrite DV.
      * now apply digit_string_iff.
      * exact SL.
      * destruct zs; simpl.
        -- intros r H. now apply lstrip_zero_head in H.
        -- intros r H. now apply rstrip_zero_last in H.
        -- apply dig_length.
    + f_equal. unfold sign_text, is_neg. destruct (qclt_spec v 0), (Qclt_le_dec v 0); auto.
      * apply Qcle_not_lt in q0. contradiction.
      * contradiction.
Qed.

(** ** C04 *)

Lemma readback_mono a b d : a <= b -> readback a d <= readback b d.
Proof.
  intros H. pose proof (zq_p10_pos d) as P.
  assert (Z0 : dec 0 d = 0) by (symmetry; apply dec_eq; rewrite zq_0; ring).
  assert (D : forall v, 0 <= dec (scaled v d) d)
    by (intros v; rewrite <- Z0; apply dec_le, scaled_nonneg).
  unfold readback, sgn, is_neg.
  destruct (qclt_spec a 0) as [A|A], (qclt_spec b 0) as [B|B].
  - assert (L : dec (scaled b d) d <= dec (scaled a d) d).
    { apply dec_le. unfold scaled. apply rhe_mono. apply qc_mult_le_r; [auto|].
      unfold qabs. destruct (Qclt_le_dec a 0), (Qclt_le_dec b 0); qclra. }
    qclra.
  - pose proof (D a). pose proof (D b). qclra.
  - apply Qcnot_lt_le in A. qclra.
  - apply dec_le. unfold scaled. apply rhe_mono. apply qc_mult_le_r; [auto|].
    apply Qcnot_lt_le in A, B.
    unfold qabs. destruct (Qclt_le_dec a 0), (Qclt_le_dec b 0); qclra.
Qed.

Lemma C04_lemma i d zs a b : usable_format i d -> fits i d a -> fits i d b -> a <= b ->
  exists sa sb a' b',
    write_gerber_value a (i, d) zs = Ok sa /\ write_gerber_value b (i, d) zs = Ok sb /\
    parse_gerber_value sa (i, d) zs = Ok a' /\ parse_gerber_value sb (i, d) zs = Ok b' /\
    a' <= b'.
Proof.
  intros U Fa Fb H. apply fits_scaled in Fa, Fb.
  destruct (write_parse a i d zs U Fa) as [sa [A1 A2]].
  destruct (write_parse b i d zs U Fb) as [sb [B1 B2]].
  exists sa, sb, (readback a d), (readback b d). repeat split; auto. now apply readback_mono.
Qed.

Lemma C04_inj_lemma i d zs k l s : usable_format i d ->
  (Z.abs k < 10 ^ Z.of_nat (i + d))%Z -> (Z.abs l < 10 ^ Z.of_nat (i + d))%Z ->
  write_gerber_value (grid k d) (i, d) zs = Ok s ->
  write_gerber_value (grid l d) (i, d) zs = Ok s -> k = l.
Proof.
  intros U K L W1 W2.
  destruct (C01_lemma i d zs k U K) as [s1 [E1 P1]].
  destruct (C01_lemma i d zs l U L) as [s2 [E2 P2]].
  rewrite W1 in E1. rewrite W2 in E2. inversion E1; inversion E2; subst.
  rewrite P1 in P2. apply ok_inj in P2 as E. rewrite !grid_dec in E. now apply dec_inj in E.
Qed.

(** ** C05 *)

Lemma C05_lemma i d s np nm : (i <= 6)%nat -> (d <= 7)%nat -> (1 <= i + d)%nat ->
  digit_string s -> (List.length s <= i + d)%nat ->
  let signs := repeat "+"%char np ++ repeat "-"%char nm in
  let negate (v : Qc) := match nm with O => v | _ => - v end in
  parse_gerber_value (signs ++ s) (i, d) Leading = Ok (negate (grid (int_of s) d)) /\
  parse_gerber_value (signs ++ s) (i, d) Trailing =
    Ok (negate (grid (int_of s * 10 ^ (Z.of_nat (i + d) - Z.of_nat (List.length s))) d)).
Proof.
  intros Hi Hd H1 Hs Hl signs negate. unfold signs.
  rewrite <- !app_assoc.
  rewrite !int_of_dval, !grid_dec by auto. apply digit_string_iff in Hs.
  rewrite parse_leading, parse_trailing by auto.
  unfold p10. rewrite Nat2Z.inj_sub by lia.
  destruct nm; split; reflexivity.
Qed.

Lemma C05_zeros_lemma i d s k : (i <= 6)%nat -> (d <= 7)%nat -> (1 <= i + d)%nat ->
  digit_string s -> (List.length s + k <= i + d)%nat ->
  parse_gerber_value (repeat "0"%char k ++ s) (i, d) Leading = parse_gerber_value s (i, d) Leading /\
  parse_gerber_value (s ++ repeat "0"%char k) (i, d) Trailing = parse_gerber_value s (i, d) Trailing.
Proof.
  intros Hi Hd H1 Hs Hl. apply digit_string_iff in Hs.
  pose proof (fun t => parse_leading 0 0 t i d Hi Hd H1) as PL.
  pose proof (fun t => parse_trailing 0 0 t i d Hi Hd H1) as PT.
  simpl app in PL, PT. fold (zeros k).
  rewrite !PL, !PT; rewrite ?all_digits_app, ?zeros_digits, ?Hs, ?app_length, ?zeros_length;
    try lia; auto.
  split.
  - rewrite dval_app, dval_zeros. reflexivity.
  - rewrite dval_app, dval_zeros, zeros_length, Z.add_0_r.
    fold (p10 k). rewrite <- Z.mul_assoc, <- p10_add.
    do 5 f_equal. lia.
Qed.

(** In 'none' mode the digits are aligned on the left when all integer digits are present. *)
Lemma C05_none_lemma i d s nm : (i <= 6)%nat -> (d <= 7)%nat -> s <> [] ->
  digit_string s -> (i <= List.length s)%nat ->
  parse_gerber_value (repeat "-"%char nm ++ s) (i, d) NoSupp =
    Ok ((match nm with O => fun v => v | _ => Qcopp end) (grid (int_of s) (List.length s - i))).
Proof.
  intros Hi Hd Hne Hs Hl. rewrite int_of_dval, grid_dec by auto. apply digit_string_iff in Hs.
  pose proof (parse_none 0 nm s i d Hi Hd Hne Hs) as P. simpl app in P. rewrite P.
  destruct nm; reflexivity.
Qed.

(** ** C06 *)

Lemma py_float_signed (sg : option bool) a b :
  all_digits a = true -> all_digits b = true -> a ++ b <> [] ->
  py_float ((match sg with None => [] | Some true => T "-" | Some false => T "+" end)
            ++ a ++ "."%char :: b)
  = Ok (sgn (match sg with Some true => true | _ => false end)
            (dec (dval (a ++ b)) (List.length b))).
Proof.
  intros Ha Hb Hne.
  assert (U : py_float_unsigned (a ++ "."%char :: b) = Ok (dec (dval (a ++ b)) (List.length b))).
  { unfold py_float_unsigned. rewrite span_digits_all by (auto; reflexivity).
    rewrite ceq_refl. rewrite <- (app_nil_r b) at 1. rewrite span_digits_all by auto.
    destruct (a ++ b); [contradiction|]. reflexivity. }
  destruct sg as [[|]|]; [| |now apply py_float_decimal].
  - unfold py_float. rewrite strip_id.
    + cbn [T list_ascii_of_string app]. rewrite ceq_refl, U. reflexivity.
    + intros c Hc. simpl in Hc. destruct Hc as [<-|Hc]; [reflexivity|].
      apply in_app_or in Hc as [Hc|[<-|Hc]]; try reflexivity;
      apply digit_not_space; (eapply all_digits_in; [|exact Hc]; auto).
  - unfold py_float. rewrite strip_id.
    + cbn [T list_ascii_of_string app]. simpl ceq. rewrite U. reflexivity.
    + intros c Hc. simpl in Hc. destruct Hc as [<-|Hc]; [reflexivity|].
      apply in_app_or in Hc as [Hc|[<-|Hc]]; try reflexivity;
      apply digit_not_space; (eapply all_digits_in; [|exact Hc]; auto).
Qed.

Lemma C06_lemma f zs (sg : option bool) a b :
  digit_string a -> digit_string b -> a ++ b <> [] ->
  parse_gerber_value ((match sg with None => [] | Some true => T "-" | Some false => T "+" end)
                      ++ a ++ T "." ++ b) f zs
  = Ok ((match sg with Some true => Qcopp | _ => fun v => v end)
          (grid (int_of (a ++ b)) (List.length b))).
Proof.
  intros Ha Hb Hne. unfold parse_gerber_value, parse_gerber_value_with.
  assert (D : forall p, char_in "."%char (p ++ a ++ T "." ++ b) = true).
  { intros p. apply char_in_true. apply in_or_app; right. apply in_or_app; right. now left. }
  rewrite D. change (T "." ++ b) with ("."%char :: b).
  rewrite int_of_dval, grid_dec by (apply Forall_app; auto).
  apply digit_string_iff in Ha, Hb.
  rewrite py_float_signed by auto. destruct sg as [[|]|]; reflexivity.
Qed.

(** ** C07 *)

Lemma bad_precision_iff i d : bad_precision (i, d) = true <-> (i > 6 \/ d > 7 \/ i + d > 13)%nat.
Proof.
  unfold bad_precision. rewrite !orb_true_iff, !Nat.ltb_lt. lia.
Qed.

Lemma write_ok v i d zs : bad_precision (i, d) = false ->
  exists s, write_gerber_value v (i, d) zs = Ok s.
Proof.
  intros H. unfold write_gerber_value. rewrite H.
  destruct (qceq v 0); [eauto|]. destruct (_ =? 0)%Z; [eauto|].
  match goal with |- context [match ?x with [] => _ | _ :: _ => _ end] => destruct x end; eauto.
Qed.

Lemma C07_write_lemma v i d zs :
  (i > 6 \/ d > 7 \/ i + d > 13)%nat <-> write_gerber_value v (i, d) zs = Err ValueError.
Proof.
  rewrite <- bad_precision_iff. split; intros H.
  - unfold write_gerber_value. now rewrite H.
  - destruct (bad_precision (i, d)) eqn:E; [auto|].
    destruct (write_ok v i d zs E) as [s W]. congruence.
Qed.

Lemma C07_parse_lemma s i d zs : digit_string s -> s <> [] ->
  (i > 6 \/ d > 7 \/ i + d > 13)%nat <-> parse_gerber_value s (i, d) zs = Err ValueError.
Proof.
  intros Hs Hne. apply digit_string_iff in Hs.
  rewrite <- bad_precision_iff. split; intros H.
  - unfold parse_gerber_value, parse_gerber_value_with. rewrite (char_in_digits _ s) by auto. now rewrite H.
  - destruct (bad_precision (i, d)) eqn:E; [auto|].
    assert (NB : ~ (i > 6 \/ d > 7 \/ i + d > 13)%nat)
      by (rewrite <- bad_precision_iff; congruence).
    pose proof (parse_digits_gen 0 0 s i d zs ltac:(lia) ltac:(lia) Hs) as P.
    simpl app in P. rewrite P in H; [discriminate|].
    destruct zs; simpl; [| |auto]; intros A; apply app_eq_nil in A as [A1 A2]; auto.
Qed.

(** ** C08 *)

Lemma mm_nonzero : mm_per_inch <> 0.
Proof. intros H. apply qc_eq_iff in H. discriminate. Qed.

Lemma mm_pos : 0 < mm_per_inch.
Proof. reflexivity. Qed.

Lemma metric_inch v : metric (inch v) = v.
Proof. unfold metric, inch. field. apply mm_nonzero. Qed.
Lemma inch_metric v : inch (metric v) = v.
Proof. unfold metric, inch. field. apply mm_nonzero. Qed.
Lemma metric_add a b : metric (a + b) = metric a + metric b.
Proof. unfold metric. ring. Qed.
Lemma inch_add a b : inch (a + b) = inch a + inch b.
Proof. unfold inch. field. apply mm_nonzero. Qed.
Lemma metric_0 : metric 0 = 0.
Proof. unfold metric. ring. Qed.
Lemma inch_0 : inch 0 = 0.
Proof. unfold inch. field. apply mm_nonzero. Qed.
Lemma metric_le a b : a <= b <-> metric a <= metric b.
Proof. apply qc_mult_le_r. exact mm_pos. Qed.
Lemma inch_le a b : a <= b <-> inch a <= inch b.
Proof. rewrite <- (metric_inch a) at 1. rewrite <- (metric_inch b) at 1. symmetry. apply metric_le. Qed.

(** ** C58: formats without integer or without decimal digits, 'leading' mode *)

Lemma fmt_digits_val w d v : (0 <= rhe (v * zq (p10 d)))%Z ->
  let ds := filter (fun c => negb (ceq c "."%char)) (py_fmt_f w d v) in
  all_digits ds = true /\ dval ds = rhe (v * zq (p10 d)).
Proof.
  intros H. unfold py_fmt_f. set (n := rhe (v * zq (p10 d))) in *. cbv zeta.
  pose proof (p10_pos d) as P.
  assert (Hq : (0 <= n / p10 d)%Z) by (apply Z.div_pos; lia).
  rewrite !filter_app. rewrite filter_dot_digits by apply zeros_digits.
  rewrite (filter_dot_digits (show_nat _)) by apply show_nat_digits.
  assert (E : filter (fun c => negb (ceq c "."%char)) (match d with O => [] | _ => "."%char :: dig d n end)
              = dig d n).
  { destruct d as [|d]; [reflexivity|]. cbn [filter]. rewrite ceq_refl. simpl negb. cbv iota.
    apply filter_dot_digits, dig_digits. }
  rewrite E. split.
  - rewrite !all_digits_app, zeros_digits, show_nat_digits, dig_digits. reflexivity.
  - rewrite !dval_app, dval_zeros, dval_show_nat, dval_dig, dig_length by auto.
    fold (p10 d). rewrite Z.mul_0_l, Z.add_0_l. pose proof (Z.div_mod n (p10 d)). lia.
Qed.

Lemma lstrip_len ds n : all_digits ds = true -> (0 < dval ds < p10 n)%Z ->
  (List.length (lstrip_p (ceq "0"%char) ds) <= n)%nat /\ dval (lstrip_p (ceq "0"%char) ds) = dval ds
  /\ all_digits (lstrip_p (ceq "0"%char) ds) = true.
Proof.
  intros Hd H. destruct (lstrip_zero_split ds) as [k E].
  pose proof (lstrip_zero_head ds) as HH.
  set (r := lstrip_p (ceq "0"%char) ds) in *.
  rewrite E, all_digits_app in Hd. apply andb_prop in Hd as [_ Hr].
  rewrite E, dval_app, dval_zeros, Z.mul_0_l, Z.add_0_l in *.
  split; [|auto]. destruct r as [|c r]; [simpl; lia|].
  specialize (HH c r eq_refl). cbn [all_digits forallb] in Hr. apply andb_prop in Hr as [Hc Hr].
  rewrite dval_cons in H. pose proof (dval_nonneg r Hr).
  assert (C1 : (1 <= digit_val c)%Z).
  { pose proof (digit_val_range c Hc). destruct (Z.eq_dec (digit_val c) 0) as [Z0|]; [|lia].
    exfalso. apply HH. rewrite <- (digit_val_chr c Hc), Z0. reflexivity. }
  assert (L : (10 ^ Z.of_nat (List.length r) < 10 ^ Z.of_nat n)%Z) by (unfold p10 in H; nia).
  apply Z.pow_lt_mono_r_iff in L; simpl; lia.
Qed.

Lemma C58_leading_lemma i d k : (i <= 6)%nat -> (d <= 7)%nat -> (1 <= i + d)%nat ->
  (Z.abs k < 10 ^ Z.of_nat (i + d))%Z ->
  exists s, write_gerber_value (grid k d) (i, d) Leading = Ok s /\
            parse_gerber_value s (i, d) Leading = Ok (grid k d).
Proof.
  intros Hi Hd H1 K. rewrite grid_dec. fold (p10 (i + d)) in K.
  assert (Z0 : dec 0 d = 0) by (symmetry; apply dec_eq; rewrite zq_0; ring).
  assert (P0 : parse_gerber_value (T "0") (i, d) Leading = Ok 0).
  { change (T "0") with (repeat "+"%char 0 ++ repeat "-"%char 0 ++ T "0").
    rewrite parse_leading by (auto; simpl; lia). simpl sgn. f_equal. apply Z0. }
  unfold write_gerber_value. rewrite good_precision by lia.
  destruct (qceq_spec (dec k d) 0) as [Ev|Ev].
  { eexists; split; [reflexivity|]. now rewrite P0, Ev. }
  rewrite qabs_if.
  assert (R : rhe (qabs (dec k d) * zq (p10 d)) = Z.abs k) by exact (scaled_dec k d).
  destruct (fmt_digits_val (i + d + 1) d (qabs (dec k d))) as [F1 F2]; [rewrite R; lia|].
  rewrite R in F2.
  set (ds := filter (fun c => negb (ceq c "."%char)) (py_fmt_f (i + d + 1) d (qabs (dec k d)))) in *.
  assert (KN : k <> 0%Z) by (intros ->; contradiction).
  assert (S0 : (digit_sum ds =? 0)%Z = false).
  { apply Z.eqb_neq. rewrite digit_sum_0 by auto. lia. }
  rewrite S0.
  destruct (lstrip_len ds (i + d) F1 ltac:(lia)) as [L1 [L2 L3]].
  set (r := lstrip_p (ceq "0"%char) ds) in *.
  assert (NE : r <> []) by (intros E; rewrite E in L2; change (dval []) with 0%Z in L2; lia).
  assert (M : forall (x y : res text), match r with [] => x | _ :: _ => y end = y)
    by (intros x y; destruct r; [contradiction|reflexivity]).
  rewrite M. eexists; split; [reflexivity|].
  assert (SG : (if qclt (dec k d) 0 then "-"%char :: r else r)
     = repeat "+"%char 0 ++ repeat "-"%char (if qclt (dec k d) 0 then 1 else 0) ++ r)
    by (destruct (qclt (dec k d) 0); reflexivity).
  rewrite SG, parse_leading by auto.
  assert (NG : (0 <? (if qclt (dec k d) 0 then 1 else 0))%nat = is_neg (dec k d))
    by (unfold is_neg; destruct (qclt (dec k d) 0); reflexivity).
  rewrite NG, L2, F2, <- qabs_dec. f_equal. apply sgn_qabs.
Qed.

Lemma C58_refuted_lemma :
  exists i d zs k s v, (i <= 6)%nat /\ (d <= 7)%nat /\ (Z.abs k < 10 ^ Z.of_nat (i + d))%Z /\
    write_gerber_value (grid k d) (i, d) zs = Ok s /\
    parse_gerber_value s (i, d) zs = Ok v /\ v <> grid k d.
Proof.
  exists 0%nat, 5%nat, Trailing, 12345%Z. do 2 eexists.
  split; [lia|]. split; [lia|]. split; [reflexivity|].
  split; [vm_compute; reflexivity|]. split; [vm_compute; reflexivity|].
  intros H. apply qc_eq_iff in H. vm_compute in H. discriminate.
Qed.

Lemma C59_refuted_lemma :
  exists i d zs v s w, usable_format i d /\
    write_gerber_value v (i, d) zs = Ok s /\
    parse_gerber_value s (i, d) zs = Ok w /\ half_ulp d < qabs (v - w).
Proof.
  exists 2%nat, 5%nat, Trailing, (grid 12345000 5). do 2 eexists.
  split; [split; lia|].
  split; [vm_compute; reflexivity|]. split; [vm_compute; reflexivity|].
  vm_compute. reflexivity.
Qed.

Lemma metric_1 : metric 1 = Q2Qc (254 # 10).
Proof. apply qc_eq_iff. reflexivity. Qed.
