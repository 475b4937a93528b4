(** Binary floating point: rounding to 53 significant bits, and the codec under rounding. *)
From Coq Require Import Lqa.
From Verif Require Import PyBase QcLib NumModel NumSpec NumProofs.
Open Scope Qc_scope.

(** ** Model of rounding to double precision *)

(** 2^s for an integer s. *)
Definition pow2 (s : Z) : Qc :=
  match s with
  | Zneg p => / zq (2 ^ Zpos p)
  | _ => zq (2 ^ s)
  end.

(** Exponent e of v <> 0: 2^e <= |v| < 2^(e+1). *)
Definition exponent (v : Qc) : Z :=
  let e := (Z.log2 (Z.abs (Qnum (this v))) - Z.log2 (Zpos (Qden (this v))))%Z in
  if qclt (qabs v) (pow2 e) then (e - 1)%Z else e.

(** IEEE-754 binary64 round-to-nearest-even.  Simplification: the exponent range is unbounded (no
    overflow to inf, no subnormals). *)
Definition rnd53 (v : Qc) : Qc :=
  if qceq v 0 then 0
  else let s := (52 - exponent v)%Z in zq (rhe (v * pow2 s)) * pow2 (- s).

(** [float(text)]: the exact decimal rounded to double. *)
Definition py_float_fl (rnd : Qc -> Qc) (s : text) : res Qc := do v <- py_float s; Ok (rnd v).
(** utils.py:32-94 with the rounding [float]. *)
Definition parse_gerber_value_fl (rnd : Qc -> Qc) : text -> fmt -> zmode -> res Qc :=
  parse_gerber_value_with (py_float_fl rnd).
(** utils.py:243-272 with rounded constant and rounded result. *)
Definition metric_fl (rnd : Qc -> Qc) (v : Qc) : Qc := rnd (v * rnd mm_per_inch).
Definition inch_fl (rnd : Qc -> Qc) (v : Qc) : Qc := rnd (v / rnd mm_per_inch).

(** ** Properties of rounding *)

Definition eps53 : Qc := Q2Qc (1 # (2 ^ 53)).

(** What the codec needs of a rounding function: odd, relative error at most 2^-53. *)
Definition double_rounding (rnd : Qc -> Qc) : Prop :=
  (forall v, rnd (- v) = - rnd v) /\ (forall v, qabs (rnd v - v) <= qabs v * eps53).

Lemma zq2_pos p : (0 < 2 ^ p)%Z \/ (p < 0)%Z.
Proof. destruct (Z.lt_ge_cases p 0); [right; auto|left]. apply Z.pow_pos_nonneg; lia. Qed.

Lemma pow2_nonneg s : (0 <= s)%Z -> pow2 s = zq (2 ^ s).
Proof. destruct s; simpl; auto; lia. Qed.
Lemma pow2_neg s : (s <= 0)%Z -> pow2 s = / zq (2 ^ (- s)).
Proof.
  destruct s; simpl; auto; try lia.
Qed.

Lemma zq_pow2_nonzero s : (0 <= s)%Z -> zq (2 ^ s) <> 0.
Proof. intros H. apply zq_nonzero. pose proof (Z.pow_pos_nonneg 2 s). lia. Qed.

Lemma zq_pow2_pos s : (0 <= s)%Z -> 0 < zq (2 ^ s).
Proof. intros H. rewrite <- zq_0. apply zq_lt. apply Z.pow_pos_nonneg; lia. Qed.

Lemma pow2_succ s : pow2 (s + 1) = pow2 s * zq 2.
Proof.
  destruct (Z.lt_ge_cases s 0) as [H|H].
  - rewrite (pow2_neg (s + 1)), (pow2_neg s) by lia.
    replace (- s)%Z with (- (s + 1) + 1)%Z by lia.
    rewrite (Z.pow_add_r 2 (- (s + 1)) 1) by lia. change (2 ^ 1)%Z with 2%Z. rewrite zq_mult.
    field. split; [apply zq_nonzero; lia|apply zq_pow2_nonzero; lia].
  - rewrite !pow2_nonneg by lia. rewrite Z.pow_add_r by lia. change (2 ^ 1)%Z with 2%Z.
    now rewrite zq_mult.
Qed.

Lemma pow2_add_nat s n : pow2 (s + Z.of_nat n) = pow2 s * pow2 (Z.of_nat n).
Proof.
  induction n.
  - replace (s + Z.of_nat 0)%Z with s by lia. change (pow2 (Z.of_nat 0)) with (zq 1). rewrite zq_1. ring.
  - rewrite Nat2Z.inj_succ. unfold Z.succ. rewrite Z.add_assoc, !pow2_succ, IHn. ring.
Qed.

Lemma pow2_pos s : 0 < pow2 s.
Proof.
  destruct (Z.lt_ge_cases s 0) as [H|H].
  - rewrite pow2_neg by lia. apply Qcnot_le_lt. intros G.
    pose proof (zq_pow2_pos (- s) ltac:(lia)) as P.
    apply (qc_mult_le_r _ _ _ P) in G. rewrite Qcmult_0_l in G.
    rewrite Qcmult_comm, Qcmult_inv_r in G by (apply zq_pow2_nonzero; lia).
    apply Qcle_not_lt in G. apply G. reflexivity.
  - rewrite pow2_nonneg by lia. apply zq_pow2_pos. lia.
Qed.

Lemma pow2_nonzero s : pow2 s <> 0.
Proof. intros E. pose proof (pow2_pos s) as P. rewrite E in P. now apply Qclt_not_eq in P. Qed.

Lemma pow2_inv s : pow2 s * pow2 (- s) = 1.
Proof.
  destruct (Z.lt_ge_cases s 0) as [H|H].
  - rewrite (pow2_neg s), (pow2_nonneg (- s)) by lia. field. apply zq_pow2_nonzero; lia.
  - rewrite (pow2_neg (- s)), (pow2_nonneg s) by lia. rewrite Z.opp_involutive.
    field. apply zq_pow2_nonzero; lia.
Qed.

Lemma qabs_opp v : qabs (- v) = qabs v.
Proof. unfold qabs. destruct (Qclt_le_dec (- v) 0), (Qclt_le_dec v 0); qclra. Qed.

Lemma qabs_mult_pos a b : 0 < b -> qabs (a * b) = qabs a * b.
Proof.
  intros Hb. unfold qabs.
  assert (N : a < 0 -> a * b < 0).
  { intros A. replace 0 with (0 * b) by ring. apply Qcmult_lt_compat_r; auto. }
  assert (P : 0 <= a -> 0 <= a * b).
  { intros A. replace 0 with (0 * b) by ring. now apply qc_mult_le_r. }
  destruct (Qclt_le_dec (a * b) 0) as [H|H], (Qclt_le_dec a 0) as [G|G]; try ring.
  - specialize (P G). apply Qcle_not_lt in P. contradiction.
  - specialize (N G). apply Qcle_not_lt in H. contradiction.
Qed.

(** |v| lies in [2^e, 2^(e+1)). *)
Lemma exponent_low v : v <> 0 -> pow2 (exponent v) <= qabs v.
Proof.
  intros Hv. unfold exponent.
  set (e := (Z.log2 (Z.abs (Qnum (this v))) - Z.log2 (Zpos (Qden (this v))))%Z).
  destruct (qclt_spec (qabs v) (pow2 e)) as [L|L]; [|now apply Qcnot_lt_le in L].
  clear L.
  destruct v as [[n m] Hc]. cbn [this Qnum Qden] in e.
  assert (Hn : n <> 0%Z).
  { intros ->. apply Hv. apply qc_eq_iff. reflexivity. }
  set (a := Z.log2 (Z.abs n)) in *. set (b := Z.log2 (Zpos m)) in *.
  pose proof (Z.log2_spec (Z.abs n) ltac:(lia)) as [A1 A2].
  pose proof (Z.log2_spec (Zpos m) ltac:(lia)) as [B1 B2].
  fold a in A1, A2. fold b in B1, B2.
  assert (Ha : (0 <= a)%Z) by apply Z.log2_nonneg.
  assert (Hb : (0 <= b)%Z) by apply Z.log2_nonneg.
  set (v := {| this := n # m; canon := Hc |}) in *.
  assert (V : qabs v * zq (Zpos m) = zq (Z.abs n)).
  { apply qc_eq_iff. unfold qabs. destruct (Qclt_le_dec v 0) as [S|S].
    - rewrite this_mult, this_opp, !this_zq. unfold Qclt in S. simpl in S. unfold Qlt in S. simpl in S.
      unfold Qeq. simpl. replace (Z.abs n) with (- n)%Z by lia. destruct n; simpl; nia.
    - rewrite this_mult, !this_zq. unfold Qcle in S. simpl in S. unfold Qle in S. simpl in S.
      unfold Qeq. simpl. replace (Z.abs n) with n by lia. nia. }
  assert (Pm : 0 < zq (Zpos m)) by (rewrite <- zq_0; apply zq_lt; lia).
  apply (qc_mult_le_r _ _ _ Pm). rewrite V.
  (* 2^(a-b-1) * m <= 2^(a-b-1) * 2^(b+1) = 2^a <= |n| *)
  assert (E : pow2 (e - 1) * zq (2 ^ (b + 1)) = zq (2 ^ a)).
  { rewrite <- (pow2_nonneg (b + 1)), <- (pow2_nonneg a) by lia.
    replace (b + 1)%Z with (Z.of_nat (Z.to_nat (b + 1))) by lia.
    rewrite <- pow2_add_nat. f_equal. lia. }
  apply (Qcle_trans _ (pow2 (e - 1) * zq (2 ^ (b + 1)))).
  - rewrite !(Qcmult_comm (pow2 (e - 1))). apply qc_mult_le_r; [apply pow2_pos|].
    apply zq_le. unfold Z.succ in *. lia.
  - rewrite E. apply zq_le. lia.
Qed.

Lemma rhe_opp v : rhe (- v) = (- rhe v)%Z.
Proof.
  destruct (rhe_spec v) as [_ T]. destruct (rhe_bounds v) as [B1 B2].
  destruct (rhe_spec (- v)) as [_ T']. destruct (rhe_bounds (- v)) as [C1 C2].
  set (a := rhe v) in *. set (b := rhe (- v)) in *.
  assert (L1 : zq (a + b) <= zq 1) by (rewrite zq_plus, zq_1; qclra).
  assert (L2 : zq (-1) <= zq (a + b)).
  { rewrite zq_plus. change (zq (-1)) with (- zq 1). rewrite zq_1. qclra. }
  apply (proj1 (zq_le _ _)) in L1. apply (proj1 (zq_le _ _)) in L2.
  assert (D : (a + b = 0 \/ a + b = 1 \/ a + b = -1)%Z) by lia.
  destruct D as [D|[D|D]]; [lia| |].
  - exfalso. assert (E : zq a + zq b = 1) by (rewrite <- zq_plus, D; apply zq_1).
    assert (E1 : v - zq a = - Q2Qc (1 # 2)).
    { apply qc_eq_iff. apply Qle_antisym; qclra. }
    assert (E2 : - v - zq b = - Q2Qc (1 # 2)).
    { apply qc_eq_iff. apply Qle_antisym; qclra. }
    specialize (T (or_intror E1)). specialize (T' (or_intror E2)).
    assert (Ev : Z.even (a + b) = true) by now rewrite Z.even_add, T, T'.
    rewrite D in Ev. discriminate.
  - exfalso. assert (E : zq a + zq b = - (1)) by (rewrite <- zq_plus, D; now rewrite <- zq_1).
    assert (E1 : v - zq a = Q2Qc (1 # 2)).
    { apply qc_eq_iff. apply Qle_antisym; qclra. }
    assert (E2 : - v - zq b = Q2Qc (1 # 2)).
    { apply qc_eq_iff. apply Qle_antisym; qclra. }
    specialize (T (or_introl E1)). specialize (T' (or_introl E2)).
    assert (Ev : Z.even (a + b) = true) by now rewrite Z.even_add, T, T'.
    rewrite D in Ev. discriminate.
Qed.

Lemma exponent_opp v : exponent (- v) = exponent v.
Proof.
  unfold exponent. rewrite qabs_opp.
  assert (E : this (- v) = (- this v)%Q).
  { destruct v as [q Hq]. change (Qred (- q) = (- q)%Q). rewrite Qred_opp. now rewrite Hq. }
  rewrite E. simpl. now rewrite Z.abs_opp.
Qed.

Lemma rnd53_opp v : rnd53 (- v) = - rnd53 v.
Proof.
  unfold rnd53. rewrite exponent_opp.
  destruct (qceq_spec v 0) as [Ev|N], (qceq_spec (- v) 0) as [E|E]; cbv iota zeta; try ring.
  - exfalso. apply E. rewrite Ev. ring.
  - exfalso. apply N. rewrite <- (Qcopp_involutive v), E. ring.
  - replace (- v * pow2 (52 - exponent v)) with (- (v * pow2 (52 - exponent v))) by ring.
    rewrite rhe_opp, zq_opp. ring.
Qed.

Lemma eps53_pow2 : eps53 * pow2 52 = Q2Qc (1 # 2).
Proof. apply qc_eq_iff. vm_compute. reflexivity. Qed.

Lemma rnd53_error v : qabs (rnd53 v - v) <= qabs v * eps53.
Proof.
  unfold rnd53. destruct (qceq_spec v 0) as [->|N].
  - vm_compute. discriminate.
  - set (e := exponent v). set (s := (52 - e)%Z).
    pose proof (exponent_low v N) as L. fold e in L.
    pose proof (pow2_pos s) as P.
    apply (qc_mult_le_r _ _ _ P).
    rewrite <- qabs_mult_pos by auto.
    replace ((zq (rhe (v * pow2 s)) * pow2 (- s) - v) * pow2 s)
      with (zq (rhe (v * pow2 s)) * (pow2 s * pow2 (- s)) - v * pow2 s) by ring.
    rewrite pow2_inv, Qcmult_1_r.
    apply (Qcle_trans _ (Q2Qc (1 # 2))).
    + destruct (rhe_spec (v * pow2 s)) as [H _].
      rewrite <- qabs_opp.
      replace (- (zq (rhe (v * pow2 s)) - v * pow2 s)) with (v * pow2 s - zq (rhe (v * pow2 s))) by ring.
      exact H.
    + rewrite <- eps53_pow2.
      assert (E : pow2 e * pow2 s = pow2 52).
      { unfold s. clear.
        assert (G : forall x y, pow2 (x + y) = pow2 x * pow2 y).
        { intros x y. destruct (Z.le_gt_cases 0 y) as [Y|Y].
          - rewrite <- (Z2Nat.id y Y). apply pow2_add_nat.
          - assert (Q : pow2 x = pow2 (x + y) * pow2 (- y)).
            { replace x with ((x + y) + Z.of_nat (Z.to_nat (- y)))%Z at 1 by lia.
              rewrite pow2_add_nat. f_equal. f_equal. lia. }
            rewrite Q. rewrite <- Qcmult_assoc, (Qcmult_comm (pow2 (- y))), pow2_inv. ring. }
        rewrite <- G. f_equal. lia. }
      rewrite <- E.
      replace (qabs v * eps53 * pow2 s) with (qabs v * (eps53 * pow2 s)) by ring.
      replace (eps53 * (pow2 e * pow2 s)) with (pow2 e * (eps53 * pow2 s)) by ring.
      apply qc_mult_le_r; [|exact L].
      replace 0 with (0 * pow2 s) by ring. apply Qcmult_lt_compat_r; [auto|reflexivity].
Qed.

Lemma rnd53_double : double_rounding rnd53.
Proof. split; [exact rnd53_opp|exact rnd53_error]. Qed.

(** ** The codec under rounding *)

Section Codec.
Variable rnd : Qc -> Qc.
Hypothesis Hrnd : double_rounding rnd.

Lemma rnd_0 : rnd 0 = 0.
Proof.
  destruct Hrnd as [O _]. specialize (O 0). replace (- 0) with 0 in O by ring.
  qclra.
Qed.

Lemma parse_fl_exact s f zs v :
  parse_gerber_value s f zs = Ok v -> parse_gerber_value_fl rnd s f zs = Ok (rnd v).
Proof.
  unfold parse_gerber_value, parse_gerber_value_fl, parse_gerber_value_with, py_float_fl.
  destruct (char_in "."%char s).
  - intros ->. reflexivity.
  - destruct f as [i d]. destruct (bad_precision (i, d)); [discriminate|].
    destruct (py_float _) as [r|e]; simpl; [|discriminate].
    intros H. apply ok_inj in H. subst. f_equal.
    destruct (char_in "-"%char (lstrip "+" s)); [|reflexivity].
    symmetry. apply Hrnd.
Qed.

(** 10^13 / 2^53 < 1/2: a double within the supported precision identifies its grid point. *)
Lemma scaled_rnd k d n : (Z.abs k < p10 n)%Z -> (n <= 13)%nat ->
  scaled (rnd (dec k d)) d = Z.abs k.
Proof.
  intros K N. unfold scaled. destruct Hrnd as [_ R]. specialize (R (dec k d)).
  rewrite qabs_dec in R. pose proof (zq_p10_pos d) as P.
  apply (qc_mult_le_r _ _ _ P) in R.
  replace (dec (Z.abs k) d * eps53 * zq (p10 d)) with (dec (Z.abs k) d * zq (p10 d) * eps53) in R by ring.
  rewrite dec_mult in R. rewrite <- qabs_mult_pos in R by auto.
  assert (B : zq (Z.abs k) * eps53 < Q2Qc (1 # 2)).
  { apply (Qcle_lt_trans _ (zq (p10 13) * eps53)); [|reflexivity].
    apply qc_mult_le_r; [reflexivity|]. apply zq_le.
    assert (p10 n <= p10 13)%Z by (apply Z.pow_le_mono_r; lia). lia. }
  apply rhe_unique.
  - rewrite <- (dec_mult (Z.abs k) d), <- qabs_dec, <- qabs_mult_pos by auto.
    rewrite <- qabs_mult_pos by auto.
    replace ((rnd (dec k d) - dec k d) * zq (p10 d))
      with (rnd (dec k d) * zq (p10 d) - dec k d * zq (p10 d)) in R by ring.
    unfold qabs in *. repeat destruct (Qclt_le_dec _ _) in *; qclra.
  - rewrite <- (dec_mult (Z.abs k) d), <- qabs_dec, <- qabs_mult_pos by auto.
    rewrite <- qabs_mult_pos by auto.
    replace ((rnd (dec k d) - dec k d) * zq (p10 d))
      with (rnd (dec k d) * zq (p10 d) - dec k d * zq (p10 d)) in R by ring.
    unfold qabs in *. repeat destruct (Qclt_le_dec _ _) in *; qclra.
Qed.

Lemma rnd_sign v : is_neg (rnd v) = is_neg v.
Proof.
  destruct Hrnd as [_ R]. specialize (R v). unfold is_neg.
  assert (E0 : 0 < eps53) by reflexivity.
  assert (E1 : eps53 < 1) by reflexivity.
  unfold qabs in R. destruct (qclt_spec v 0) as [H|H].
  - apply qclt_true. destruct (Qclt_le_dec v 0) as [_|C]; [|apply Qcle_not_lt in C; contradiction].
    assert (X : - v * eps53 < - v * 1)
      by (rewrite !(Qcmult_comm (- v)); apply Qcmult_lt_compat_r; [qclra|auto]).
    rewrite Qcmult_1_r in X.
    destruct (Qclt_le_dec (rnd v - v) 0); qclra.
  - apply Qcnot_lt_le in H. destruct (qclt_spec (rnd v) 0) as [G|G]; [exfalso|reflexivity].
    destruct (Qclt_le_dec v 0) as [C|_]; [apply Qcle_not_lt in H; contradiction|].
    assert (X : v * eps53 <= v * 1)
      by (rewrite !(Qcmult_comm v); apply Qcmult_le_compat_r; [now apply Qclt_le_weak|auto]).
    rewrite Qcmult_1_r in X.
    destruct (Qclt_le_dec (rnd v - v) 0); qclra.
Qed.

Lemma write_rnd i d zs k : usable_format i d -> (Z.abs k < p10 (i + d))%Z ->
  write_gerber_value (rnd (dec k d)) (i, d) zs = write_gerber_value (dec k d) (i, d) zs.
Proof.
  intros U K. assert (N : (i + d <= 13)%nat) by (destruct U; lia).
  rewrite !write_spec by (auto; rewrite ?scaled_dec, ?(scaled_rnd k d (i + d)); auto).
  rewrite (scaled_rnd k d (i + d)), scaled_dec, rnd_sign by auto. reflexivity.
Qed.

Lemma codec_fl i d zs k : usable_format i d -> (Z.abs k < 10 ^ Z.of_nat (i + d))%Z ->
  exists s, write_gerber_value (rnd (grid k d)) (i, d) zs = Ok s /\
            write_gerber_value (grid k d) (i, d) zs = Ok s /\
            parse_gerber_value_fl rnd s (i, d) zs = Ok (rnd (grid k d)).
Proof.
  intros U K. destruct (C01_lemma i d zs k U K) as [s [W P]].
  exists s. split; [|split; [exact W|now apply parse_fl_exact]].
  rewrite grid_dec in *. now rewrite write_rnd.
Qed.
End Codec.
