(** The text of a tool is the text of the tool with rounded numbers. *)
From Verif Require FloatCodec.
From Verif Require Import PyBase QcLib NumModel FmtModel NumSpec NumProofs FmtProofs DecimalProofs ExcellonMore RoundSpec RoundText DrillRoundSpec.
Open Scope list_scope.
Open Scope Qc_scope.

(** ** Diameters: cut off after the decimal places of the format *)
Definition canon (d : nat) (K : Z) : text := show_nat (K / p10 d) ++ "."%char :: dig d (K mod p10 d).
Lemma p10_eq d : p10 d = (10 ^ Z.of_nat d)%Z. Proof. reflexivity. Qed.
Lemma fraction_cut k m d : (0 <= m < p10 k)%Z -> let frac := rstrip_p (ceq "0"%char) (dig k m) in
  (if (d <? List.length frac)%nat then firstn d frac else frac ++ zeros (d - List.length frac)) = dig d (m * p10 d / p10 k).
Proof.
  intros Hm frac. destruct (rstrip_zero_split (dig k m)) as (j & E). fold frac in E.
  assert (D : all_digits frac = true) by (pose proof (dig_digits k m) as X; rewrite E, all_digits_app in X; now apply andb_prop in X).
  assert (V : dval (dig k m) = m) by (rewrite dval_dig, Z.mod_small; [reflexivity|exact Hm]).
  assert (Lk : k = (List.length frac + j)%nat) by (rewrite <- (dig_length k m), E, app_length, zeros_length; reflexivity).
  pose proof (p10_pos d) as Pd. pose proof (p10_pos k) as Pk.
  destruct (Nat.ltb_spec d (List.length frac)) as [L|L].
  - assert (D1 : all_digits (firstn d frac) = true) by (pose proof D as X; rewrite <- (firstn_skipn d frac), all_digits_app in X; now apply andb_prop in X).
    assert (D2 : all_digits (skipn d frac) = true) by (pose proof D as X; rewrite <- (firstn_skipn d frac), all_digits_app in X; now apply andb_prop in X).
    set (r := skipn d frac ++ zeros j).
    assert (E' : dig k m = firstn d frac ++ r) by (unfold r; rewrite app_assoc, firstn_skipn; exact E).
    assert (Lr : k = (d + List.length r)%nat) by (unfold r; rewrite app_length, skipn_length, zeros_length; lia).
    assert (Dr : all_digits r = true) by (unfold r; rewrite all_digits_app, D2, zeros_digits; reflexivity).
    pose proof (dval_nonneg r Dr) as R0. pose proof (dval_bound r Dr) as R1. fold (p10 (List.length r)) in R1.
    assert (M : m = (dval (firstn d frac) * p10 (List.length r) + dval r)%Z) by (rewrite <- V at 1; rewrite E', dval_app; reflexivity).
    assert (Q : (m * p10 d / p10 k)%Z = dval (firstn d frac)).
    { rewrite Lr, p10_add, (Z.mul_comm (p10 d)). pose proof (p10_pos (List.length r)). rewrite Z.div_mul_cancel_r by lia.
      rewrite M, Z.add_comm, Z.div_add by lia. rewrite Z.div_small; lia. }
    rewrite Q. assert (LF : List.length (firstn d frac) = d) by (rewrite firstn_length; lia). rewrite <- LF at 2. symmetry. now apply dig_dval.
  - set (b := frac ++ zeros (d - List.length frac)).
    assert (Db : all_digits b = true) by (unfold b; rewrite all_digits_app, D, zeros_digits; reflexivity).
    assert (Lb : List.length b = d) by (unfold b; rewrite app_length, zeros_length; lia).
    assert (M : m = (dval frac * p10 j)%Z) by (rewrite <- V at 1; rewrite E, dval_app, dval_zeros, zeros_length, Z.add_0_r; reflexivity).
    assert (Vb : dval b = (dval frac * p10 (d - List.length frac))%Z) by (unfold b; rewrite dval_app, dval_zeros, zeros_length, Z.add_0_r; reflexivity).
    assert (Q : (m * p10 d / p10 k)%Z = dval b).
    { rewrite Vb, M. replace (p10 d) with (p10 (d - List.length frac) * p10 (List.length frac))%Z by (rewrite <- p10_add; f_equal; lia).
      rewrite Lk, p10_add. replace (dval frac * p10 j * (p10 (d - List.length frac) * p10 (List.length frac)))%Z with (dval frac * p10 (d - List.length frac) * (p10 (List.length frac) * p10 j))%Z by ring.
      pose proof (p10_pos (List.length frac)). pose proof (p10_pos j). now rewrite Z.div_mul by nia. }
    rewrite Q. rewrite <- Lb at 1. symmetry. now apply dig_dval.
Qed.
Lemma canon_fixed n k d v : (1 <= d)%nat -> (0 <= n)%Z -> fmt_g 10 v = show_fixed n k -> decimal_string v d true = canon d (n * p10 d / p10 k).
Proof.
  intros Hd Hn F. unfold decimal_string, canon. rewrite F. unfold show_fixed. pose proof (p10_pos d) as Pd. pose proof (p10_pos k) as Pk.
  pose proof (Z.mod_pos_bound n (p10 k) Pk) as B. pose proof (fraction_cut k (n mod p10 k) d B) as X. cbv zeta in X.
  set (frac := rstrip_p _ _) in *. set (a := show_nat (n / p10 k)).
  assert (Q : (n * p10 d / p10 k = n / p10 k * p10 d + (n mod p10 k) * p10 d / p10 k)%Z).
  { rewrite (Z.div_mod n (p10 k)) at 1 by lia. replace ((p10 k * (n / p10 k) + n mod p10 k) * p10 d)%Z with ((n mod p10 k) * p10 d + (n / p10 k * p10 d) * p10 k)%Z by ring.
    rewrite Z.div_add by lia. lia. }
  assert (FB : (0 <= (n mod p10 k) * p10 d / p10 k < p10 d)%Z).
  { split; [apply Z.div_pos; nia|]. apply Z.div_lt_upper_bound; nia. }
  rewrite Q. assert (Q1 : ((n / p10 k * p10 d + n mod p10 k * p10 d / p10 k) / p10 d = n / p10 k)%Z) by (rewrite Z.add_comm, Z.div_add by lia; rewrite Z.div_small by lia; lia).
  assert (Q2 : ((n / p10 k * p10 d + n mod p10 k * p10 d / p10 k) mod p10 d = n mod p10 k * p10 d / p10 k)%Z) by (rewrite Z.add_comm, Z.mod_add by lia; apply Z.mod_small; lia).
  rewrite Q1, Q2. fold a.
  assert (NPa : no_point a) by (apply digits_no_point, show_nat_digits).
  destruct frac as [|x frac'] eqn:Ef.
  - rewrite app_nil_r, cut_at_none by exact NPa. cbn [List.length] in X. replace (d <? 0)%nat with false in X by (symmetry; apply Nat.ltb_ge; lia).
    cbn [T list_ascii_of_string List.length]. replace (d <? 1)%nat with false by (symmetry; apply Nat.ltb_ge; lia).
    rewrite <- X. f_equal. f_equal. change ["0"%char] with (zeros 1). unfold zeros. cbn [app]. rewrite <- repeat_app. f_equal. lia.
  - rewrite <- Ef in *. replace (match frac with [] => [] | _ :: _ => "."%char :: frac end) with ("."%char :: frac) by (rewrite Ef; reflexivity).
    rewrite cut_at_some by exact NPa. now rewrite X.
Qed.
Lemma canon_exact d K : (1 <= d)%nat -> (0 <= K < 10 ^ 10)%Z -> (K = 0%Z \/ (10 ^ Z.of_nat d <= 10 ^ 4 * K)%Z) -> decimal_string (grid K d) d true = canon d K.
Proof.
  intros Hd HK H. rewrite grid_dec. pose proof (p10_pos d) as Pd. destruct (Z.eq_dec K 0) as [->|N].
  - assert (Z0 : dec 0 d = 0) by (unfold dec; rewrite zq_0; field; apply zq_p10_nonzero). rewrite Z0.
    rewrite (canon_fixed 0 0 d 0 Hd ltac:(lia) eq_refl). f_equal. 
  - destruct H as [H|H]; [contradiction|]. pose proof (zq_p10_pos d) as PP.
    assert (P0 : 0 < dec K d) by (apply (qc_mult_lt_r _ _ _ PP); rewrite dec_mult, Qcmult_0_l, <- zq_0; apply zq_lt; lia).
    destruct (fmt_g_pos_exact 10 (dec K d) K (- Z.of_nat d)) as (n & k & F & Hn & E); [lia|change (p10 10) with (10 ^ 10)%Z; lia|apply dec_qpow| |].
    { apply flog10_range; [exact P0| |].
      - apply (qc_mult_le_r _ _ _ PP). rewrite dec_mult. assert (P4 : 0 < zq 10000) by (rewrite <- zq_0; now apply zq_lt).
        apply (qc_mult_le_r _ _ _ P4). replace (zq 1 / zq 10000 * zq (p10 d) * zq 10000) with (zq (p10 d)) by (rewrite zq_1; field; intros X; rewrite X in P4; discriminate).
        rewrite <- zq_mult. apply zq_le. unfold p10. lia.
      - apply (qc_mult_lt_r _ _ _ PP). rewrite dec_mult, <- zq_mult. apply zq_lt. change (p10 10) with (10 ^ 10)%Z. nia. }
    assert (G : fmt_g 10 (dec K d) = show_fixed n k).
    { unfold fmt_g. destruct (qceq_spec (dec K d) 0) as [X|_]; [rewrite X in P0; discriminate|]. destruct (qclt_spec (dec K d) 0) as [X|_]; [exfalso; qclra|exact F]. }
    rewrite (canon_fixed n k d _ Hd Hn G). f_equal.
    assert (X : (K * p10 k = n * p10 d)%Z).
    { apply zq_inj. rewrite !zq_mult. rewrite <- (dec_mult K d), <- (dec_mult n k), <- E. ring. }
    rewrite <- X. pose proof (p10_pos k). now rewrite Z.div_mul by lia.
Qed.
Definition cut_places (d : nat) (v : Qc) : Z := let (n, e) := digits_exp 10 v in (n * p10 d / p10 (Z.to_nat (9 - e)))%Z.
Definition cut_diameter (d : nat) (v : Qc) : Qc := if qceq v 0 then 0 else grid (cut_places d v) d.
Lemma qabs_bound x b : - b <= x -> x <= b -> qabs x <= b.
Proof. intros A B. unfold qabs. destruct (Qclt_le_dec x 0); qclra. Qed.
Lemma qabs_bounds x b : qabs x <= b -> - b <= x /\ x <= b.
Proof. unfold qabs. destruct (Qclt_le_dec x 0); intros; split; qclra. Qed.
Lemma qpow10_mono a b : (a <= b)%Z -> qpow10 a <= qpow10 b.
Proof. intros H. destruct (Z.eq_dec a b) as [->|N]; [apply Qcle_refl|]. apply Qclt_le_weak, qpow10_lt. lia. Qed.
Lemma diameter_cut d v : (1 <= d <= 7)%nat -> plain_diameter d v ->
  exact_decimal d (cut_diameter d v) /\ decimal_string v d true = decimal_string (cut_diameter d v) d true /\ within (unit_place d) v (cut_diameter d v).
Proof.
  intros Hd H. assert (U0 : 0 <= unit_place d).
  { unfold unit_place. rewrite ten_p10. pose proof (zq_p10_pos d) as P. apply (qc_mult_le_r _ _ _ P). replace (1 / zq (p10 d) * zq (p10 d)) with 1 by (field; apply zq_p10_nonzero). qclra. }
  unfold cut_diameter. destruct (qceq_spec v 0) as [->|N].
  { split; [|split].
    - exists 0%Z. split; [lia|]. split; [|now left]. rewrite grid_dec. unfold dec. rewrite zq_0. field. apply zq_p10_nonzero.
    - reflexivity.
    - unfold within. apply qabs_bound; qclra. }
  destruct H as [H|[H1 H2]]; [contradiction|]. assert (V0 : 0 < v) by (eapply Qclt_le_trans; [|exact H1]; reflexivity).
  pose proof (flog10_spec v V0) as [F1 F2]. pose proof (round_sig_close 10 v ltac:(lia) V0) as RC.
  assert (P4 : qpow10 (-4) <= v) by (replace (qpow10 (-4)) with (Q2Qc (1 # 10000)) by (apply qc_eq_iff; reflexivity); exact H1).
  assert (F4 : (-4 <= flog10 v)%Z). { assert (X : qpow10 (-4) < qpow10 (flog10 v + 1)) by (eapply Qcle_lt_trans; eauto). apply qpow10_le_inv in X. lia. }
  assert (V9 : v <= qpow10 (9 - Z.of_nat d)).
  { apply (qc_mult_le_r _ _ _ (zq_p10_pos d)). rewrite <- qpow10_nat, <- qpow10_add. replace (9 - Z.of_nat d + Z.of_nat d)%Z with (Z.of_nat 9) by lia. rewrite !qpow10_nat, <- !ten_p10. exact H2. }
  unfold cut_places. destruct (digits_exp 10 v) as [n e] eqn:E. destruct (digits_exp_spec 10 v n e ltac:(lia) V0 E) as [Rn Rs].
  change (p10 (10 - 1)) with (10 ^ 9)%Z in Rn. change (p10 10) with (10 ^ 10)%Z in Rn. change (Z.of_nat 10 - 1)%Z with 9%Z in *.
  assert (Ee : e = flog10 v \/ e = (flog10 v + 1)%Z) by (unfold digits_exp in E; destruct (_ =? _)%Z; injection E as _ <-; auto).
  assert (E9 : (e <= 9 - Z.of_nat d)%Z).
  { destruct (Z.le_gt_cases (flog10 v) (8 - Z.of_nat d)) as [L|L]; [lia|].
    assert (X : (flog10 v <= 9 - Z.of_nat d)%Z).
    { destruct (Z.le_gt_cases (flog10 v) (9 - Z.of_nat d)) as [Y|Y]; [exact Y|]. exfalso. assert (qpow10 (9 - Z.of_nat d) < qpow10 (flog10 v)) by (apply qpow10_lt; lia). apply Qclt_not_le in H. apply H. eapply Qcle_trans; eauto. }
    assert (FE : flog10 v = (9 - Z.of_nat d)%Z) by lia. assert (VE : v = qpow10 (9 - Z.of_nat d)) by (apply Qcle_antisym; [exact V9|rewrite <- FE; exact F1]).
    unfold digits_exp in E. cbv zeta in E. rewrite FE, VE, <- qpow10_add in E. change (Z.of_nat 10) with 10%Z in E. replace (9 - Z.of_nat d + (10 - 1 - (9 - Z.of_nat d)))%Z with (Z.of_nat 9) in E by lia. rewrite qpow10_nat, rhe_zq in E.
    destruct (Z.eqb_spec (p10 9) (p10 10)) as [Y|_]; [exfalso; clear - Y; vm_compute in Y; discriminate|]. apply (f_equal snd) in E. unfold snd in E. lia. }
  assert (E4 : (-4 <= e)%Z) by lia. set (k := Z.to_nat (9 - e)). assert (Hk : Z.of_nat k = (9 - e)%Z) by (unfold k; lia). assert (dk : (d <= k)%nat) by lia.
  assert (KD : (n * p10 d / p10 k = n / p10 (k - d))%Z).
  { replace (p10 k) with (p10 (k - d) * p10 d)%Z by (rewrite <- p10_add; f_equal; lia). pose proof (p10_pos d). pose proof (p10_pos (k - d)). apply Z.div_mul_cancel_r; lia. }
  rewrite KD. pose proof (p10_pos (k - d)) as Pkd. pose proof (p10_pos d) as Pd. set (K := (n / p10 (k - d))%Z).
  pose proof (Z.div_mod n (p10 (k - d)) ltac:(lia)) as DM. fold K in DM. pose proof (Z.mod_pos_bound n (p10 (k - d)) Pkd) as MB.
  assert (K0 : (0 <= K)%Z) by (apply Z.div_pos; lia). assert (K1 : (K < 10 ^ 10)%Z) by nia.
  assert (K4 : K = 0%Z \/ (10 ^ Z.of_nat d <= 10 ^ 4 * K)%Z).
  { fold (p10 d). destruct (le_lt_dec d 4) as [L|L].
    - destruct (Z.eq_dec K 0) as [Y|Y]; [now left|right]. assert (p10 d <= 10 ^ 4)%Z by (unfold p10; apply Z.pow_le_mono_r; lia). nia.
    - right. assert (X : (p10 (d - 4) <= K)%Z).
      { apply Z.div_le_lower_bound; [exact Pkd|]. rewrite <- p10_add. assert ((k - d + (d - 4)) <= 9)%nat by lia. assert (p10 (k - d + (d - 4)) <= 10 ^ 9)%Z by (unfold p10; apply Z.pow_le_mono_r; lia). lia. }
      replace (p10 d) with (10 ^ 4 * p10 (d - 4))%Z; [lia|]. replace d with (4 + (d - 4))%nat at 2 by lia. rewrite p10_add. reflexivity. }
  split; [|split].
  - exists K. split; [lia|]. split; [reflexivity|]. rewrite Z.abs_eq by lia. exact K4.
  - rewrite (canon_exact d K ltac:(lia) ltac:(lia) K4). unfold K. rewrite <- KD. 
    apply canon_fixed; [lia|lia|]. unfold fmt_g. destruct (qceq_spec v 0) as [X|_]; [contradiction|]. destruct (qclt_spec v 0) as [X|_]; [exfalso; qclra|].
    rewrite fmt_g_pos_digits, E. replace ((-4 <=? e) && (e <? Z.of_nat 10))%Z with true by (symmetry; apply andb_true_intro; split; [apply Z.leb_le|apply Z.ltb_lt]; lia).
    f_equal.
  - unfold within. pose proof (zq_p10_pos k) as PP.
    assert (A1 : qabs (v * zq (p10 k) - zq n) <= Q2Qc (1 # 2)).
    { replace (v * zq (p10 k) - zq n) with ((v - round_sig 10 v) * zq (p10 k)).
      - rewrite FloatCodec.qabs_mult_pos by exact PP. eapply Qcle_trans; [apply Qcmult_le_compat_r; [exact RC|now apply Qclt_le_weak]|].
        rewrite <- qpow10_nat, <- Qcmult_assoc, <- qpow10_add. assert (X : qpow10 (flog10 v - 9 + Z.of_nat k) <= 1) by (rewrite <- qpow10_0; apply qpow10_mono; lia).
        rewrite Qcmult_comm. replace (Q2Qc (1 # 2)) with (1 * Q2Qc (1 # 2)) at 2 by ring. apply Qcmult_le_compat_r; [exact X|]. discriminate.
      - rewrite Rs. rewrite <- qpow10_nat, Hk. replace (zq n) with (zq n * (qpow10 (e - 9) * qpow10 (9 - e))) at 2; [ring|]. rewrite <- qpow10_add. replace (e - 9 + (9 - e))%Z with 0%Z by lia. rewrite qpow10_0. ring. }
    apply qabs_bounds in A1 as [A1 A2].
    assert (G : grid K d * zq (p10 k) = zq (K * p10 (k - d))).
    { rewrite grid_dec. replace (p10 k) with (p10 d * p10 (k - d))%Z by (rewrite <- p10_add; f_equal; lia). rewrite zq_mult, Qcmult_assoc, dec_mult, <- zq_mult. reflexivity. }
    assert (UP : unit_place d * zq (p10 k) = zq (p10 (k - d))).
    { unfold unit_place. rewrite ten_p10. replace (p10 k) with (p10 d * p10 (k - d))%Z by (rewrite <- p10_add; f_equal; lia). rewrite zq_mult. field. apply zq_p10_nonzero. }
    assert (M1 : zq (K * p10 (k - d)) <= zq n) by (apply zq_le; lia). assert (M2 : zq n + 1 <= zq (K * p10 (k - d)) + zq (p10 (k - d))) by (rewrite <- zq_1, <- !zq_plus; apply zq_le; lia).
    apply (qc_mult_le_r _ _ _ PP). rewrite <- FloatCodec.qabs_mult_pos by exact PP. rewrite UP. replace ((v - grid K d) * zq (p10 k)) with (v * zq (p10 k) - zq (K * p10 (k - d))) by (rewrite <- G; ring).
    assert (P1 : 1 <= zq (p10 (k - d))) by (rewrite <- zq_1; apply zq_le; lia).
    apply qabs_bound; qclra.
Qed.
