(** Lemmas about repr (ReprModel.v): reading the text gives the same double, and the same decimal. *)
From Coq Require Import Lqa.
From Verif Require Import PyBase QcLib NumModel NumSpec NumProofs FmtModel FmtProofs FloatCodec ReprModel.
Open Scope Qc_scope.

(** ** Reading the text *)
Lemma py_float_unsigned_point n k : (0 <= n)%Z -> py_float_unsigned (show_point n k) = Ok (dec n k).
Proof.
  intros Hn. unfold show_point. destruct (rstrip_p (ceq "0"%char) (dig k (n mod p10 k))) as [|c b] eqn:E.
  - unfold show_fixed. rewrite E, app_nil_r. pose proof (p10_pos k) as Pk.
    assert (Hq : (0 <= n / p10 k)%Z) by (apply Z.div_pos; lia).
    destruct (rstrip_dig_val (show_nat (n / p10 k)) (dig k (n mod p10 k)) k (dig_digits _ _) (dig_length _ _)) as [V _].
    rewrite E, app_nil_r in V. cbn [List.length] in V.
    assert (VV : dec (dval (show_nat (n / p10 k) ++ dig k (n mod p10 k))) k = dec n k).
    { f_equal. rewrite dval_app, dval_show_nat, dval_dig, dig_length by auto. fold (p10 k).
      rewrite Z.mod_mod by lia. pose proof (Z.div_mod n (p10 k) ltac:(lia)). lia. }
    rewrite VV in V. set (a := show_nat (n / p10 k)) in *.
    assert (Da : all_digits a = true) by apply show_nat_digits.
    unfold py_float_unsigned. change (T ".0") with ("."%char :: T "0"). rewrite (span_digits_all a) by (auto; reflexivity).
    change (ceq "." ".") with true. cbv iota. change (span_digits (T "0")) with (T "0", [] : text). cbv iota beta.
    destruct (a ++ T "0") as [|x y] eqn:F; [destruct a; discriminate|]. rewrite <- F. cbn [with_exponent].
    rewrite <- V, dval_app. change (List.length (T "0")) with 1%nat. change (dval (T "0")) with 0%Z. f_equal. unfold dec.
    rewrite p10_0, zq_1. change (p10 1) with 10%Z. replace (dval a * 10 ^ Z.of_nat 1 + 0)%Z with (dval a * 10)%Z by lia. rewrite zq_mult. field. split; discriminate.
  - rewrite app_nil_r. rewrite <- (app_nil_r (show_fixed n k)). rewrite py_float_unsigned_fixed by (auto; now left). reflexivity.
Qed.

Lemma show_point_head n k : exists c r, show_point n k = c :: r /\ is_digit c = true.
Proof. unfold show_point. apply show_fixed_head. Qed.
Lemma show_point_last n k : exists r c, show_point n k = r ++ [c] /\ is_digit c = true.
Proof.
  unfold show_point. destruct (rstrip_p (ceq "0"%char) (dig k (n mod p10 k))) as [|c b].
  - exists (show_fixed n k ++ T "."), "0"%char. split; [now rewrite <- app_assoc|reflexivity].
  - rewrite app_nil_r. apply show_fixed_last.
Qed.

(** The text of a positive value. *)
Lemma fmt_r_pos_form P v : (1 <= P)%nat -> 0 < v -> py_float_unsigned (fmt_r_pos P v) = Ok (round_sig P v) /\
  (exists c r, fmt_r_pos P v = c :: r /\ is_digit c = true) /\ (exists r c, fmt_r_pos P v = r ++ [c] /\ is_digit c = true).
Proof.
  intros HP Hv. unfold fmt_r_pos, round_sig. set (e0 := flog10 v). set (n0 := rhe (v * qpow10 (Z.of_nat P - 1 - e0))).
  assert (N0 : (0 <= n0)%Z).
  { apply rhe_nonneg. pose proof (qpow10_pos (Z.of_nat P - 1 - e0)) as Q.
    rewrite <- (Qcmult_0_l (qpow10 (Z.of_nat P - 1 - e0))). apply Qcmult_le_compat_r; now apply Qclt_le_weak. }
  assert (G : forall n e, (0 <= n)%Z -> zq n * qpow10 (e - (Z.of_nat P - 1)) = zq n0 * qpow10 (e0 - (Z.of_nat P - 1)) ->
    let t := if ((-4 <=? e) && (e <? 16))%Z then
               (if (e <? Z.of_nat P)%Z then show_point n (Z.to_nat (Z.of_nat P - 1 - e))
                else show_point (n * p10 (Z.to_nat (e - (Z.of_nat P - 1)))) 0)
             else show_fixed n (P - 1) ++ show_exp e in
    py_float_unsigned t = Ok (zq n0 * qpow10 (e0 - (Z.of_nat P - 1))) /\
    (exists c r, t = c :: r /\ is_digit c = true) /\ (exists r c, t = r ++ [c] /\ is_digit c = true)).
  { intros n e Hn E. cbv zeta. destruct ((-4 <=? e) && (e <? 16))%Z.
    - destruct (Z.ltb_spec e (Z.of_nat P)) as [B|B]; (split; [|split; [apply show_point_head|apply show_point_last]]).
      + rewrite py_float_unsigned_point by auto. rewrite <- E, dec_qpow. f_equal. f_equal. f_equal. lia.
      + pose proof (p10_pos (Z.to_nat (e - (Z.of_nat P - 1)))). rewrite py_float_unsigned_point by nia.
        rewrite <- E. unfold dec. rewrite p10_0, zq_1, zq_mult, <- qpow10_nat. replace (Z.of_nat (Z.to_nat (e - (Z.of_nat P - 1)))) with (e - (Z.of_nat P - 1))%Z by lia.
        f_equal. field. discriminate.
    - split; [|split; [apply show_fixed_head|]].
      + rewrite py_float_unsigned_fixed by (auto; right; eauto).
        rewrite with_exponent_show, <- E, dec_qpow, <- Qcmult_assoc, <- qpow10_add. f_equal. f_equal. f_equal. lia.
      + apply with_exponent_tail_last. right. eauto. }
  destruct (Z.eqb_spec n0 (p10 P)) as [E|E]; apply G; auto.
  - pose proof (p10_pos (P - 1)). lia.
  - rewrite E. replace P with (S (P - 1)) at 3 by lia. rewrite p10_S, zq_mult.
    replace (zq 10) with (qpow10 1) by (apply qc_eq_iff; reflexivity).
    rewrite (Qcmult_comm (qpow10 1)), <- Qcmult_assoc, <- qpow10_add. f_equal. f_equal. lia.
Qed.

Lemma py_float_fmt_r P v : (1 <= P)%nat -> py_float (fmt_r P v) = Ok (round_sig_signed P v).
Proof.
  intros HP. unfold fmt_r, round_sig_signed. destruct (qceq_spec v 0) as [->|Hz].
  { transitivity (Ok (dec 0 1)); [reflexivity|]. f_equal. apply qc_eq_iff. reflexivity. }
  destruct (qclt_spec v 0) as [H|H].
  - destruct (fmt_r_pos_form P (- v) HP ltac:(qclra)) as (Hw & _ & r & c & E & D). unfold py_float.
    rewrite (last_digit_strip ("-"%char :: fmt_r_pos P (- v)) "-"%char (fmt_r_pos P (- v)) ("-"%char :: r) c); auto.
    + change (ceq "-" "-") with true. cbv iota. rewrite Hw. reflexivity.
    + now rewrite E.
  - assert (Hv : 0 < v).
    { apply Qcnot_le_lt. intros C. apply Qcle_lt_or_eq in C as [C|C]; auto. }
    destruct (fmt_r_pos_form P v HP Hv) as (Hw & (c0 & r0 & E0 & D0) & r & c & E & D). unfold py_float.
    rewrite (last_digit_strip (fmt_r_pos P v) c0 r0 r c); auto.
    rewrite E0. rewrite (digit_neq c0 "-"%char), (digit_neq c0 "+"%char) by auto. now rewrite <- E0.
Qed.

(** ** Doubles *)
Lemma pow2_add x y : pow2 (x + y) = pow2 x * pow2 y.
Proof.
  destruct (Z.le_gt_cases 0 y) as [Y|Y].
  - rewrite <- (Z2Nat.id y Y). apply pow2_add_nat.
  - assert (Q : pow2 x = pow2 (x + y) * pow2 (- y)).
    { replace x with ((x + y) + Z.of_nat (Z.to_nat (- y)))%Z at 1 by lia.
      rewrite pow2_add_nat. f_equal. f_equal. lia. }
    rewrite Q. rewrite <- Qcmult_assoc, (Qcmult_comm (pow2 (- y))), pow2_inv. ring.
Qed.
Lemma pow2_lt a b : (a < b)%Z -> pow2 a < pow2 b.
Proof.
  intros H. replace b with (a + (b - a))%Z by lia. rewrite pow2_add, (pow2_nonneg (b - a)) by lia.
  pose proof (pow2_pos a) as P. assert (1 < zq (2 ^ (b - a))) as O.
  { rewrite <- zq_1. apply zq_lt. apply Z.pow_gt_1; lia. }
  rewrite <- (Qcmult_1_l (pow2 a)) at 1. rewrite (Qcmult_comm (pow2 a)). now apply Qcmult_lt_compat_r.
Qed.
Lemma pow2_le_inv a b : pow2 a < pow2 b -> (a < b)%Z.
Proof.
  intros H. destruct (Z.ltb_spec a b) as [L|L]; [exact L|exfalso].
  apply Qclt_not_le in H. apply H. destruct (Z.eq_dec a b) as [->|N]; [apply Qcle_refl|]. apply Qclt_le_weak, pow2_lt. lia.
Qed.
Lemma exponent_high v : v <> 0 -> qabs v < pow2 (exponent v + 1).
Proof.
  intros Hv. unfold exponent.
  set (e := (Z.log2 (Z.abs (Qnum (this v))) - Z.log2 (Zpos (Qden (this v))))%Z).
  destruct (qclt_spec (qabs v) (pow2 e)) as [L|L]; [now replace (e - 1 + 1)%Z with e by lia|].
  clear L. destruct v as [[n m] Hc]. cbn [this Qnum Qden] in e.
  assert (Hn : n <> 0%Z) by (intros ->; apply Hv; apply qc_eq_iff; reflexivity).
  set (a := Z.log2 (Z.abs n)) in *. set (b := Z.log2 (Zpos m)) in *.
  pose proof (Z.log2_spec (Z.abs n) ltac:(lia)) as [A1 A2].
  pose proof (Z.log2_spec (Zpos m) ltac:(lia)) as [B1 B2].
  fold a in A1, A2. fold b in B1, B2.
  assert (Ha : (0 <= a)%Z) by apply Z.log2_nonneg.
  assert (Hb : (0 <= b)%Z) by apply Z.log2_nonneg.
  set (v := {| this := n # m; canon := Hc |}) in *.
  assert (V : qabs v * zq (Zpos m) = zq (Z.abs n)).
  { apply qc_eq_iff. unfold qabs. destruct (Qclt_le_dec v 0) as [S|S].
    - rewrite this_mult, this_opp, !this_zq. unfold Qclt in S. simpl in S. unfold Qlt in S. simpl in S.
      unfold Qeq. simpl. replace (Z.abs n) with (- n)%Z by lia. destruct n; simpl; nia.
    - rewrite this_mult, !this_zq. unfold Qcle in S. simpl in S. unfold Qle in S. simpl in S.
      unfold Qeq. simpl. replace (Z.abs n) with n by lia. nia. }
  assert (Pm : 0 < zq (Zpos m)) by (rewrite <- zq_0; apply zq_lt; lia).
  apply Qcnot_le_lt. intros C. apply (qc_mult_le_r _ _ _ Pm) in C. rewrite V in C.
  assert (E : pow2 (e + 1) * zq (2 ^ b) = zq (2 ^ (a + 1))).
  { rewrite <- (pow2_nonneg b), <- (pow2_nonneg (a + 1)) by lia. rewrite <- pow2_add. f_equal. lia. }
  apply Qcle_not_lt in C. apply C. apply (Qclt_le_trans _ (zq (2 ^ (a + 1)))).
  - apply zq_lt. unfold Z.succ in *. lia.
  - rewrite <- E. rewrite !(Qcmult_comm (pow2 (e + 1))). apply qc_mult_le_r; [apply pow2_pos|]. apply zq_le. lia.
Qed.

(** A double times the power of two of its last place is an integer. *)
Lemma double_int v : rnd53 v = v -> v <> 0 -> v * pow2 (52 - exponent v) = zq (rhe (v * pow2 (52 - exponent v))).
Proof.
  intros R N. unfold rnd53 in R. destruct (qceq_spec v 0); [contradiction|]. cbv zeta in R.
  set (s := (52 - exponent v)%Z) in *. rewrite <- R at 1. rewrite <- Qcmult_assoc, (Qcmult_comm (pow2 (- s))), pow2_inv. ring.
Qed.
Lemma double_int_more v s : rnd53 v = v -> v <> 0 -> (52 - exponent v <= s)%Z -> exists m, v * pow2 s = zq m.
Proof.
  intros R N L. pose proof (double_int v R N) as E. replace s with ((52 - exponent v) + (s - (52 - exponent v)))%Z by lia.
  rewrite pow2_add, Qcmult_assoc, E, (pow2_nonneg (s - _)) by lia. rewrite <- zq_mult. eauto.
Qed.

Definition tiny : Qc := Q2Qc (1 # (2 * 10 ^ 16)).
Lemma rnd53_near v w : rnd53 v = v -> v <> 0 -> qabs (v - w) <= qabs v * tiny -> rnd53 w = v.
Proof.
  intros R N D.
  assert (Nw : w <> 0).
  { intros ->. replace (v - 0) with v in D by ring. unfold qabs in D. destruct (Qclt_le_dec v 0) as [S|S].
    - assert (X : - v * tiny < - v * 1) by (rewrite !(Qcmult_comm (- v)); apply Qcmult_lt_compat_r; [qclra|reflexivity]). qclra.
    - assert (S' : 0 < v) by (apply Qcle_lt_or_eq in S as [S|S]; [exact S|congruence]).
      assert (X : v * tiny < v * 1) by (rewrite !(Qcmult_comm v); apply Qcmult_lt_compat_r; [exact S'|reflexivity]). qclra. }
  assert (T1 : qabs w <= qabs v + qabs v * tiny).
  { revert D. unfold qabs. repeat destruct (Qclt_le_dec _ _); qclra. }
  assert (T2 : qabs v <= qabs w + qabs v * tiny).
  { revert D. unfold qabs. repeat destruct (Qclt_le_dec _ _); qclra. }
  (* the exponent of w is at most that of v *)
  assert (EX : (exponent w <= exponent v)%Z).
  { apply Z.lt_succ_r. unfold Z.succ. apply pow2_le_inv. apply (Qcle_lt_trans _ (qabs w)); [now apply exponent_low|].
    pose proof (exponent_high v N) as H. pose proof (double_int v R N) as E.
    set (e := exponent v) in *. set (s := (52 - e)%Z) in *. set (m := rhe (v * pow2 s)) in *. clearbody m.
    pose proof (pow2_pos s) as Ps.
    assert (AV : qabs v * pow2 s = zq (Z.abs m)).
    { rewrite <- qabs_mult_pos, E by auto. unfold qabs. destruct (Qclt_le_dec (zq m) 0) as [S|S].
      - rewrite <- zq_0 in S. apply (proj1 (zq_lt _ _)) in S. rewrite <- zq_opp. apply zq_inj. lia.
      - rewrite <- zq_0 in S. apply (proj1 (zq_le _ _)) in S. apply zq_inj. lia. }
    assert (PE : pow2 (e + 1) * pow2 s = zq (2 ^ 53)).
    { rewrite <- pow2_add. unfold s. replace (e + 1 + (52 - e))%Z with 53%Z by lia. reflexivity. }
    assert (M : (Z.abs m <= 2 ^ 53 - 1)%Z).
    { assert (zq (Z.abs m) < zq (2 ^ 53)) as L by (rewrite <- AV, <- PE; now apply Qcmult_lt_compat_r). apply (proj1 (zq_lt _ _)) in L. lia. }
    apply Qcnot_le_lt. intros C. apply (qc_mult_le_r _ _ _ Ps) in C. apply (qc_mult_le_r _ _ _ Ps) in T1. rewrite PE in C.
    replace ((qabs v + qabs v * tiny) * pow2 s) with (qabs v * pow2 s * (1 + tiny)) in T1 by ring. rewrite AV in T1.
    assert (X : zq (Z.abs m) * (1 + tiny) <= zq (2 ^ 53 - 1) * (1 + tiny)) by (apply qc_mult_le_r; [reflexivity|now apply zq_le]).
    assert (Y : zq (2 ^ 53 - 1) * (1 + tiny) < zq (2 ^ 53)) by reflexivity.
    qclra. }
  unfold rnd53. destruct (qceq_spec w 0); [contradiction|]. cbv zeta. set (s := (52 - exponent w)%Z).
  destruct (double_int_more v s R N ltac:(unfold s; lia)) as [m E]. pose proof (pow2_pos s) as Ps.
  assert (F : rhe (w * pow2 s) = m).
  { pose proof (exponent_high w Nw) as H.
    assert (PE : pow2 (exponent w + 1) * pow2 s = zq (2 ^ 53)).
    { rewrite <- pow2_add. unfold s. replace (exponent w + 1 + (52 - exponent w))%Z with 53%Z by lia. reflexivity. }
    assert (W : qabs w * pow2 s < zq (2 ^ 53)) by (rewrite <- PE; now apply Qcmult_lt_compat_r).
    apply (qc_mult_le_r _ _ _ Ps) in T2. apply (qc_mult_le_r _ _ _ Ps) in D.
    rewrite <- qabs_mult_pos in D by auto. replace ((v - w) * pow2 s) with (v * pow2 s - w * pow2 s) in D by ring. rewrite E in D.
    replace (qabs v * tiny * pow2 s) with (qabs v * pow2 s * tiny) in D by ring.
    replace ((qabs w + qabs v * tiny) * pow2 s) with (qabs w * pow2 s + qabs v * pow2 s * tiny) in T2 by ring.
    set (a := qabs v * pow2 s) in *. set (b := qabs w * pow2 s) in *.
    assert (A : a * (1 - tiny) < zq (2 ^ 53)) by (replace (a * (1 - tiny)) with (a - a * tiny) by ring; qclra).
    assert (A' : a < zq (2 ^ 53 + 1)).
    { apply Qcnot_le_lt. intros C. assert (X : zq (2 ^ 53 + 1) * (1 - tiny) <= a * (1 - tiny)) by (apply qc_mult_le_r; [reflexivity|exact C]).
      assert (Y : zq (2 ^ 53) < zq (2 ^ 53 + 1) * (1 - tiny)) by reflexivity. qclra. }
    assert (B : a * tiny < Q2Qc (1 # 2)).
    { apply (Qcle_lt_trans _ (zq (2 ^ 53 + 1) * tiny)); [|reflexivity]. apply qc_mult_le_r; [reflexivity|now apply Qclt_le_weak]. }
    apply rhe_unique; unfold qabs in D; destruct (Qclt_le_dec (zq m - w * pow2 s) 0); qclra. }
  rewrite F, <- E, <- Qcmult_assoc, pow2_inv. ring.
Qed.

Lemma round_sig_signed_relative P v : (1 <= P)%nat -> qabs (v - round_sig_signed P v) <= Q2Qc (1 # 2) * dec 1 (P - 1) * qabs v.
Proof.
  intros HP. unfold round_sig_signed. destruct (qceq_spec v 0) as [->|Hz].
  - replace (0 - 0) with 0 by ring. replace (qabs 0) with 0 by (apply qc_eq_iff; reflexivity). rewrite Qcmult_0_r. apply Qcle_refl.
  - destruct (qclt_spec v 0) as [H|H].
    + assert (H' : 0 < - v) by qclra. pose proof (round_sig_relative P (- v) HP H') as R.
      replace (qabs v) with (- v) by (unfold qabs; destruct (Qclt_le_dec v 0); [reflexivity|exfalso; qclra]).
      replace (v - - round_sig P (- v)) with (- (- v - round_sig P (- v))) by ring. now rewrite qabs_opp.
    + assert (Hv : 0 < v) by (apply Qcnot_le_lt; intros C; apply Qcle_lt_or_eq in C as [C|C]; auto).
      replace (qabs v) with v by (unfold qabs; destruct (Qclt_le_dec v 0); [exfalso; qclra|reflexivity]).
      now apply round_sig_relative.
Qed.

(** 17 digits are enough. *)
Lemma seventeen v : rnd53 v = v -> rnd53 (round_sig_signed 17 v) = v.
Proof.
  intros R. destruct (qceq_spec v 0) as [->|N]; [reflexivity|]. apply rnd53_near; auto.
  pose proof (round_sig_signed_relative 17 v ltac:(lia)) as H. rewrite Qcmult_comm in H. exact H.
Qed.

Lemma digits_needed_reads fuel P v : (1 <= P)%nat -> rnd53 v = v -> rnd53 (round_sig_signed (digits_needed fuel P v) v) = v /\ (1 <= digits_needed fuel P v)%nat.
Proof.
  revert P. induction fuel as [|fuel IH]; intros P HP R; [split; [now apply seventeen|cbn; lia]|]. cbn [digits_needed].
  rewrite py_float_fmt_r by auto. destruct (qceq_spec (rnd53 (round_sig_signed P v)) v) as [E|E]; [split; auto|].
  apply IH; auto; lia.
Qed.

(** Integers of at most 53 bits times powers of two are doubles. *)
Lemma small_double_lt m s : (Z.abs m < 2 ^ 53)%Z -> rnd53 (zq m * pow2 (- s)) = zq m * pow2 (- s).
Proof.
  intros M. set (w := zq m * pow2 (- s)). destruct (qceq_spec w 0) as [->|N]; [reflexivity|].
  assert (X : (exponent w < 53 - s)%Z).
  { apply pow2_le_inv. apply (Qcle_lt_trans _ (qabs w)); [now apply exponent_low|]. unfold w.
    rewrite qabs_mult_pos by apply pow2_pos. replace (53 - s)%Z with (53 + - s)%Z by lia. rewrite pow2_add.
    apply Qcmult_lt_compat_r; [apply pow2_pos|]. rewrite pow2_nonneg by lia. unfold qabs.
    destruct (Qclt_le_dec (zq m) 0); [rewrite <- zq_opp|]; apply zq_lt; lia. }
  unfold rnd53. destruct (qceq_spec w 0); [contradiction|]. cbv zeta. set (x := (52 - exponent w)%Z).
  assert (E : w * pow2 x = zq (m * 2 ^ (x - s))).
  { rewrite zq_mult, <- (pow2_nonneg (x - s)) by (unfold x; lia). unfold w. rewrite <- Qcmult_assoc, <- pow2_add. f_equal. f_equal. lia. }
  rewrite E, rhe_zq, <- E, <- Qcmult_assoc, pow2_inv. ring.
Qed.
Lemma small_double m s : (Z.abs m <= 2 ^ 53)%Z -> rnd53 (zq m * pow2 (- s)) = zq m * pow2 (- s).
Proof.
  intros M. destruct (Z.eq_dec (Z.abs m) (2 ^ 53)) as [E|E]; [|apply small_double_lt; lia].
  assert (exists k, m = (k * 2)%Z /\ (Z.abs k < 2 ^ 53)%Z) as (k & -> & K).
  { destruct (Z.abs_eq_or_opp m) as [A|A]; [exists (2 ^ 52)%Z|exists (- 2 ^ 52)%Z]; lia. }
  replace (zq (k * 2) * pow2 (- s)) with (zq k * pow2 (- (s - 1))); [now apply small_double_lt|].
  replace (- (s - 1))%Z with (- s + 1)%Z by lia. rewrite pow2_succ, zq_mult. ring.
Qed.

(** rnd53 gives doubles. *)
Lemma rnd53_idem v : rnd53 (rnd53 v) = rnd53 v.
Proof.
  destruct (qceq_spec v 0) as [->|N]; [reflexivity|].
  set (e := exponent v). set (s := (52 - e)%Z). set (m := rhe (v * pow2 s)).
  assert (E : rnd53 v = zq m * pow2 (- s)).
  { unfold rnd53. destruct (qceq_spec v 0); [contradiction|]. reflexivity. }
  pose proof (pow2_pos s) as Ps.
  assert (B : zq (2 ^ 52) <= qabs (v * pow2 s) /\ qabs (v * pow2 s) < zq (2 ^ 53)).
  { rewrite qabs_mult_pos by auto. split.
    - replace (zq (2 ^ 52)) with (pow2 e * pow2 s) by (rewrite <- pow2_add; unfold s; replace (e + (52 - e))%Z with 52%Z by lia; reflexivity).
      apply qc_mult_le_r; [auto|now apply exponent_low].
    - replace (zq (2 ^ 53)) with (pow2 (e + 1) * pow2 s) by (rewrite <- pow2_add; unfold s; replace (e + 1 + (52 - e))%Z with 53%Z by lia; reflexivity).
      apply Qcmult_lt_compat_r; [auto|now apply exponent_high]. }
  destruct (rhe_bounds (v * pow2 s)) as [R1 R2]. fold m in R1, R2.
  assert (M : (2 ^ 52 <= Z.abs m <= 2 ^ 53)%Z).
  { destruct B as [B1 B2]. unfold qabs in B1, B2. destruct (Qclt_le_dec (v * pow2 s) 0) as [S|S].
    - assert (L1 : zq (2 ^ 52 - 1) < zq (- m)) by (rewrite zq_opp; replace (zq (2 ^ 52 - 1)) with (zq (2 ^ 52) - 1) by (apply qc_eq_iff; reflexivity); qclra).
      assert (L2 : zq (- m) < zq (2 ^ 53 + 1)) by (rewrite zq_opp; replace (zq (2 ^ 53 + 1)) with (zq (2 ^ 53) + 1) by (apply qc_eq_iff; reflexivity); qclra).
      apply (proj1 (zq_lt _ _)) in L1. apply (proj1 (zq_lt _ _)) in L2. lia.
    - assert (L1 : zq (2 ^ 52 - 1) < zq m) by (replace (zq (2 ^ 52 - 1)) with (zq (2 ^ 52) - 1) by (apply qc_eq_iff; reflexivity); qclra).
      assert (L2 : zq m < zq (2 ^ 53 + 1)) by (replace (zq (2 ^ 53 + 1)) with (zq (2 ^ 53) + 1) by (apply qc_eq_iff; reflexivity); qclra).
      apply (proj1 (zq_lt _ _)) in L1. apply (proj1 (zq_lt _ _)) in L2. lia. }
  rewrite E. apply small_double. lia.
Qed.

(** ** Decimals of at most 15 significant digits *)
(** Such a decimal scaled to exactly P digits. *)
Lemma scale_digits P m e : (1 <= P)%nat -> (0 < m < p10 P)%Z -> exists k j, zq m * qpow10 e = zq k * qpow10 j /\ (p10 (P - 1) <= k < p10 P)%Z.
Proof.
  intros HP H. remember (Z.to_nat (p10 P - m)) as n eqn:En. revert m e H En.
  induction n as [n IH] using lt_wf_ind. intros m e H En.
  destruct (Z.le_gt_cases (p10 (P - 1)) m) as [L|L]; [exists m, e; split; [reflexivity|lia]|].
  assert (Q : p10 P = (10 * p10 (P - 1))%Z) by (replace P with (S (P - 1)) at 1 by lia; now rewrite p10_S).
  destruct (IH (Z.to_nat (p10 P - m * 10))) with (m := (m * 10)%Z) (e := (e - 1)%Z) as (k & j & E & K); try lia.
  exists k, j. split; [|exact K]. rewrite <- E, zq_mult. replace (zq 10) with (qpow10 1) by (apply qc_eq_iff; reflexivity).
  rewrite <- Qcmult_assoc, <- qpow10_add. f_equal. f_equal. lia.
Qed.

Lemma flog10_unique v e : qpow10 e <= v -> v < qpow10 (e + 1) -> flog10 v = e.
Proof.
  intros L U. assert (Hv : 0 < v) by (eapply Qclt_le_trans; [apply qpow10_pos|exact L]).
  pose proof (flog10_spec v Hv) as [F1 F2].
  assert (A : (flog10 v < e + 1)%Z) by (apply qpow10_le_inv; eapply Qcle_lt_trans; eauto).
  assert (B : (e < flog10 v + 1)%Z) by (apply qpow10_le_inv; eapply Qcle_lt_trans; eauto). lia.
Qed.

Lemma rnd53_pos_close v : 0 < v -> v * (1 - eps53) <= rnd53 v /\ rnd53 v <= v * (1 + eps53).
Proof.
  intros H. pose proof (rnd53_error v) as D. unfold qabs in D at 2. destruct (Qclt_le_dec v 0); [qclra|].
  replace (v * (1 - eps53)) with (v - v * eps53) by ring. replace (v * (1 + eps53)) with (v + v * eps53) by ring.
  unfold qabs in D. destruct (Qclt_le_dec (rnd53 v - v) 0); split; qclra.
Qed.

Lemma round_digits P m e : (1 <= P <= 15)%nat -> (0 < m < p10 P)%Z -> round_sig P (rnd53 (zq m * qpow10 e)) = zq m * qpow10 e.
Proof.
  intros HP H. destruct (scale_digits P m e ltac:(lia) H) as (k & j & E & K). rewrite E. clear m e H E.
  set (u := zq k * qpow10 j). pose proof (qpow10_pos j) as Pj.
  pose proof (p10_pos (P - 1)) as P0.
  assert (P1 : p10 P = (10 * p10 (P - 1))%Z) by (replace P with (S (P - 1)) at 1 by lia; now rewrite p10_S).
  assert (P15 : (p10 P <= 10 ^ 15)%Z) by (change (10 ^ 15)%Z with (p10 15); unfold p10; apply Z.pow_le_mono_r; lia).
  assert (ZP : zq (p10 P) = zq 10 * zq (p10 (P - 1))) by now rewrite P1, zq_mult.
  assert (Hk : 0 < zq k) by (rewrite <- zq_0; apply zq_lt; lia).
  assert (Hu : 0 < u) by (unfold u; rewrite <- (Qcmult_0_l (qpow10 j)); now apply Qcmult_lt_compat_r).
  destruct (rnd53_pos_close u Hu) as [W1 W2]. set (w := rnd53 u) in *.
  (* scaled by 10^-j *)
  assert (IJ : qpow10 j * qpow10 (- j) = 1) by (rewrite <- qpow10_add; replace (j + - j)%Z with 0%Z by lia; apply qpow10_0).
  pose proof (qpow10_pos (- j)) as Pm.
  assert (SU : u * qpow10 (- j) = zq k) by (unfold u; rewrite <- Qcmult_assoc, IJ; ring).
  set (x := w * qpow10 (- j)).
  assert (X1 : zq k * (1 - eps53) <= x).
  { unfold x. rewrite <- SU. replace (u * qpow10 (- j) * (1 - eps53)) with (u * (1 - eps53) * qpow10 (- j)) by ring. now apply qc_mult_le_r. }
  assert (X2 : x <= zq k * (1 + eps53)).
  { unfold x. rewrite <- SU. replace (u * qpow10 (- j) * (1 + eps53)) with (u * (1 + eps53) * qpow10 (- j)) by ring. now apply qc_mult_le_r. }
  assert (B : zq k * eps53 < Q2Qc (1 # 4)).
  { apply (Qcle_lt_trans _ (zq (10 ^ 15) * eps53)); [|reflexivity]. apply qc_mult_le_r; [reflexivity|]. apply zq_le. lia. }
  replace (zq k * (1 - eps53)) with (zq k - zq k * eps53) in X1 by ring.
  replace (zq k * (1 + eps53)) with (zq k + zq k * eps53) in X2 by ring.
  assert (XW : w = x * qpow10 j) by (unfold x; rewrite <- Qcmult_assoc, (Qcmult_comm (qpow10 (- j))), IJ; ring).
  assert (Q14 : forall i, qpow10 (Z.of_nat i + j) = zq (p10 i) * qpow10 j) by (intros i; now rewrite qpow10_add, qpow10_nat).
  assert (U : x < zq (p10 P)).
  { assert (zq k <= zq (p10 P - 1)) by (apply zq_le; lia). rewrite zq_minus, zq_1 in H.
    assert (Q2Qc (1 # 4) < 1) by reflexivity. qclra. }
  destruct (qclt_spec x (zq (p10 (P - 1)))) as [L|L].
  - (* just below the power of ten *)
    assert (k = p10 (P - 1))%Z as ->.
    { assert (zq k < zq (p10 (P - 1) + 1)).
      { rewrite zq_plus, zq_1. assert (Q2Qc (1 # 4) < 1) by reflexivity. qclra. }
      apply (proj1 (zq_lt _ _)) in H. lia. }
    assert (L2 : zq (p10 (P - 1)) <= zq 10 * x).
    { assert (1 <= zq (p10 (P - 1))) by (rewrite <- zq_1; apply zq_le; lia).
      assert (zq 2 * x <= zq 10 * x).
      { apply Qcmult_le_compat_r; [apply zq_le; lia|]. assert (Q2Qc (1 # 4) < 1) by reflexivity. qclra. }
      replace (zq 2) with (1 + 1) in H0 by (apply qc_eq_iff; reflexivity). assert (Q2Qc (1 # 4) < Q2Qc (1 # 2)) by reflexivity.
      assert (Q2Qc (1 # 2) + Q2Qc (1 # 2) = 1) by (apply qc_eq_iff; reflexivity). replace ((1 + 1) * x) with (x + x) in H0 by ring. qclra. }
    assert (F : flog10 w = (Z.of_nat P - 2 + j)%Z).
    { apply flog10_unique; rewrite XW.
      - replace (Z.of_nat P - 2 + j)%Z with (Z.of_nat (P - 1) + j + -1)%Z by lia. rewrite qpow10_add, Q14.
        replace (qpow10 (-1)) with (/ zq 10) by (apply qc_eq_iff; reflexivity).
        replace (zq (p10 (P - 1)) * qpow10 j * / zq 10) with ((zq (p10 (P - 1)) * / zq 10) * qpow10 j) by ring. apply qc_mult_le_r; [exact Pj|].
        replace x with ((zq 10 * x) * / zq 10) by (field; discriminate). apply Qcmult_le_compat_r; [exact L2|discriminate].
      - replace (Z.of_nat P - 2 + j + 1)%Z with (Z.of_nat (P - 1) + j)%Z by lia. rewrite Q14. now apply Qcmult_lt_compat_r. }
    unfold round_sig. rewrite F.
    assert (R : rhe (w * qpow10 (Z.of_nat P - 1 - (Z.of_nat P - 2 + j))) = p10 P).
    { replace (w * qpow10 (Z.of_nat P - 1 - (Z.of_nat P - 2 + j))) with (x * zq 10).
      2:{ unfold x. replace (Z.of_nat P - 1 - (Z.of_nat P - 2 + j))%Z with (- j + 1)%Z by lia. rewrite qpow10_add. replace (qpow10 1) with (zq 10) by (apply qc_eq_iff; reflexivity). ring. }
      assert (Y1 : (zq (p10 (P - 1)) - zq (p10 (P - 1)) * eps53) * zq 10 <= x * zq 10) by (apply qc_mult_le_r; [reflexivity|exact X1]).
      assert (Y2 : x * zq 10 < zq (p10 (P - 1)) * zq 10) by (apply Qcmult_lt_compat_r; [reflexivity|exact L]).
      assert (Y3 : zq (p10 P) * eps53 < Q2Qc (1 # 2)).
      { apply (Qcle_lt_trans _ (zq (10 ^ 15) * eps53)); [|reflexivity]. apply qc_mult_le_r; [reflexivity|]. apply zq_le. lia. }
      rewrite ZP in Y3. replace (zq 10 * zq (p10 (P - 1)) * eps53) with (zq (p10 (P - 1)) * eps53 * zq 10) in Y3 by ring.
      replace ((zq (p10 (P - 1)) - zq (p10 (P - 1)) * eps53) * zq 10) with (zq (p10 (P - 1)) * zq 10 - zq (p10 (P - 1)) * eps53 * zq 10) in Y1 by ring.
      assert (Y4 : 0 < Q2Qc (1 # 2)) by reflexivity.
      apply rhe_unique; rewrite ZP, (Qcmult_comm (zq 10)); qclra. }
    rewrite R. unfold u. rewrite ZP. replace (zq 10) with (qpow10 1) by (apply qc_eq_iff; reflexivity).
    rewrite (Qcmult_comm (qpow10 1)), <- Qcmult_assoc, <- qpow10_add. f_equal. f_equal. lia.
  - assert (F : flog10 w = (Z.of_nat P - 1 + j)%Z).
    { apply flog10_unique; rewrite XW.
      - replace (Z.of_nat P - 1 + j)%Z with (Z.of_nat (P - 1) + j)%Z by lia. rewrite Q14. apply qc_mult_le_r; [exact Pj|]. apply Qcnot_lt_le in L. exact L.
      - replace (Z.of_nat P - 1 + j + 1)%Z with (Z.of_nat P + j)%Z by lia. rewrite Q14. now apply Qcmult_lt_compat_r. }
    unfold round_sig. rewrite F.
    replace (Z.of_nat P - 1 - (Z.of_nat P - 1 + j))%Z with (- j)%Z by lia. fold x.
    replace (Z.of_nat P - 1 + j - (Z.of_nat P - 1))%Z with j by lia. unfold u. f_equal. apply zq_inj.
    assert (Q2Qc (1 # 4) < Q2Qc (1 # 2)) by reflexivity.
    apply rhe_unique; qclra.
Qed.

Definition digitsP (P : nat) (v : Qc) : Prop := exists m e, (Z.abs m < p10 P)%Z /\ v = zq m * qpow10 e.
Lemma round_digits_signed P v : (1 <= P <= 15)%nat -> digitsP P v -> round_sig_signed P (rnd53 v) = v.
Proof.
  intros HP (m & e & M & ->). destruct (Z.lt_trichotomy m 0) as [L|[->|L]].
  - replace (zq m * qpow10 e) with (- (zq (- m) * qpow10 e)) by (rewrite zq_opp; ring).
    rewrite rnd53_opp, round_sig_signed_opp. f_equal.
    pose proof (round_digits P (- m) e HP ltac:(lia)) as R. set (v := zq (- m) * qpow10 e) in *.
    assert (Hv : 0 < v).
    { unfold v. rewrite <- (Qcmult_0_l (qpow10 e)). apply Qcmult_lt_compat_r; [apply qpow10_pos|]. rewrite <- zq_0. apply zq_lt. lia. }
    assert (W : 0 < rnd53 v).
    { destruct (rnd53_pos_close v Hv) as [W _]. eapply Qclt_le_trans; [|exact W]. rewrite <- (Qcmult_0_l (1 - eps53)).
      apply Qcmult_lt_compat_r; [reflexivity|exact Hv]. }
    unfold round_sig_signed. destruct (qceq_spec (rnd53 v) 0); [qclra|]. destruct (qclt_spec (rnd53 v) 0); [qclra|exact R].
  - rewrite zq_0, Qcmult_0_l. reflexivity.
  - pose proof (round_digits P m e HP ltac:(lia)) as R. set (v := zq m * qpow10 e) in *.
    assert (Hv : 0 < v).
    { unfold v. rewrite <- (Qcmult_0_l (qpow10 e)). apply Qcmult_lt_compat_r; [apply qpow10_pos|]. rewrite <- zq_0. apply zq_lt. lia. }
    assert (W : 0 < rnd53 v).
    { destruct (rnd53_pos_close v Hv) as [W _]. eapply Qclt_le_trans; [|exact W]. rewrite <- (Qcmult_0_l (1 - eps53)).
      apply Qcmult_lt_compat_r; [reflexivity|exact Hv]. }
    unfold round_sig_signed. destruct (qceq_spec (rnd53 v) 0); [qclra|]. destruct (qclt_spec (rnd53 v) 0); [qclra|exact R].
Qed.

Lemma round_sig_digits P v : (1 <= P <= 15)%nat -> 0 < v -> digitsP 15 (round_sig P v).
Proof.
  intros HP Hv. unfold round_sig. pose proof (flog10_spec v Hv) as [F1 F2]. set (e := flog10 v) in *.
  set (n := rhe (v * qpow10 (Z.of_nat P - 1 - e))).
  assert (N : (0 <= n <= p10 P)%Z).
  { pose proof (qpow10_pos (Z.of_nat P - 1 - e)) as Q. split.
    - apply rhe_nonneg. rewrite <- (Qcmult_0_l (qpow10 (Z.of_nat P - 1 - e))). apply Qcmult_le_compat_r; now apply Qclt_le_weak.
    - rewrite <- (rhe_zq (p10 P)). apply rhe_mono. rewrite <- qpow10_nat.
      replace (Z.of_nat P) with ((e + 1) + (Z.of_nat P - 1 - e))%Z at 2 by lia. rewrite qpow10_add.
      apply Qcmult_le_compat_r; now apply Qclt_le_weak. }
  assert (M : (p10 P <= p10 15)%Z) by (unfold p10; apply Z.pow_le_mono_r; lia).
  destruct (Z.eq_dec n (p10 P)) as [E|E].
  - exists 1%Z, (Z.of_nat P + (e - (Z.of_nat P - 1)))%Z. split; [reflexivity|]. rewrite E, qpow10_add, qpow10_nat, zq_1. ring.
  - exists n, (e - (Z.of_nat P - 1))%Z. split; [lia|reflexivity].
Qed.
Lemma round_sig_signed_digits P v : (1 <= P <= 15)%nat -> digitsP 15 (round_sig_signed P v).
Proof.
  intros HP. unfold round_sig_signed. destruct (qceq_spec v 0) as [->|Hz].
  - exists 0%Z, 0%Z. split; [reflexivity|]. rewrite zq_0. ring.
  - destruct (qclt_spec v 0) as [H|H].
    + destruct (round_sig_digits P (- v) HP ltac:(qclra)) as (m & e & M & ->). exists (- m)%Z, e. split; [lia|]. rewrite zq_opp. ring.
    + apply round_sig_digits; auto. apply Qcnot_le_lt; intros C; apply Qcle_lt_or_eq in C as [C|C]; auto.
Qed.

(** The search stops at the first number of digits that reads back. *)
Lemma digits_needed_least fuel P v Q : (1 <= P)%nat -> (P <= Q < P + fuel)%nat -> rnd53 (round_sig_signed Q v) = v -> (P <= digits_needed fuel P v <= Q)%nat.
Proof.
  revert P. induction fuel as [|fuel IH]; intros P HP B R; [lia|]. cbn [digits_needed]. rewrite py_float_fmt_r by auto.
  destruct (qceq_spec (rnd53 (round_sig_signed P v)) v) as [E|E]; [lia|].
  destruct (Nat.eq_dec P Q) as [->|N]; [contradiction|]. specialize (IH (S P) ltac:(lia) ltac:(lia) R). lia.
Qed.

(** Reading repr of any double gives that double. *)
Lemma repr_reads v : rnd53 v = v -> exists u, py_float (py_repr v) = Ok u /\ rnd53 u = v.
Proof.
  intros R. unfold py_repr. cbv zeta. rewrite R. destruct (digits_needed_reads 16 1 v ltac:(lia) R) as [A B].
  rewrite py_float_fmt_r by auto. eauto.
Qed.
(** Reading repr of a decimal of at most 15 digits gives that decimal. *)
Lemma repr_decimal v : digitsP 15 v -> py_float (py_repr v) = Ok v /\ exists P, (1 <= P <= 15)%nat /\ py_repr v = fmt_r P (rnd53 v) /\ round_sig_signed P (rnd53 v) = v.
Proof.
  intros D. unfold py_repr. cbv zeta. set (w := rnd53 v).
  assert (W : rnd53 w = w) by apply rnd53_idem.
  assert (R15 : round_sig_signed 15 w = v) by (apply round_digits_signed; [lia|exact D]).
  assert (N : (1 <= digits_needed 16 1 w <= 15)%nat) by (apply digits_needed_least; [lia|lia|now rewrite R15]).
  destruct (digits_needed_reads 16 1 w ltac:(lia) W) as [A B]. set (P := digits_needed 16 1 w) in *.
  assert (E : round_sig_signed P w = v).
  { pose proof (round_digits_signed 15 _ ltac:(lia) (round_sig_signed_digits P w N)) as F. rewrite A in F. now rewrite <- F, R15. }
  rewrite py_float_fmt_r, E by auto. split; [reflexivity|]. exists P. repeat split; auto; lia.
Qed.
