(** utils.decimal_string writes values of at most ten significant digits exactly. *)
From Verif Require Import PyBase QcLib NumModel NumSpec NumProofs FmtModel FmtProofs.
Open Scope list_scope.
Open Scope Qc_scope.

Lemma qc_mult_lt_r a b c : 0 < c -> a < b <-> a * c < b * c.
Proof.
  intros H. split; intros K; [now apply Qcmult_lt_compat_r|]. apply Qcnot_le_lt. intros L. apply Qclt_not_le in K. apply K.
  now apply -> (qc_mult_le_r b a c H).
Qed.
Lemma zq_lt_inv a b : zq a < zq b -> (a < b)%Z.
Proof.
  intros H. destruct (Z.ltb_spec a b) as [L|L]; [exact L|]. exfalso. apply Qclt_not_le in H. apply H. now apply zq_le.
Qed.
Lemma flog10_range P v : 0 < v -> zq 1 / zq 10000 <= v -> v < zq (p10 P) -> (-4 <= flog10 v < Z.of_nat P)%Z.
Proof.
  intros Hv H1 H2. pose proof (flog10_spec v Hv) as [F1 F2]. split.
  - assert (qpow10 (-4) < qpow10 (flog10 v + 1)).
    { eapply Qcle_lt_trans; [|exact F2]. replace (qpow10 (-4)) with (zq 1 / zq 10000) by (apply qc_eq_iff; reflexivity). exact H1. }
    apply qpow10_le_inv in H. lia.
  - apply qpow10_le_inv. eapply Qcle_lt_trans; [exact F1|]. rewrite qpow10_nat. exact H2.
Qed.
Lemma fmt_g_pos_exact P v m e : (1 <= P)%nat -> (0 < m < p10 P)%Z -> v = zq m * qpow10 e -> (-4 <= flog10 v < Z.of_nat P)%Z ->
  exists n k, fmt_g_pos P v = show_fixed n k /\ (0 <= n)%Z /\ v = dec n k.
Proof.
  intros HP Hm E HL. pose proof (qpow10_pos e) as Pe.
  assert (Hv : 0 < v).
  { rewrite E, <- (Qcmult_0_l (qpow10 e)). apply Qcmult_lt_compat_r; [exact Pe|]. rewrite <- zq_0. apply zq_lt. lia. }
  pose proof (flog10_spec v Hv) as [F1 F2]. pose proof (round_sig_exact P v m e HP Hm E) as RE. unfold round_sig in RE. unfold fmt_g_pos.
  set (e0 := flog10 v) in *. set (n0 := rhe (v * qpow10 (Z.of_nat P - 1 - e0))) in *.
  assert (V : v * qpow10 (Z.of_nat P - 1 - e0) = zq n0).
  { rewrite <- RE at 1. rewrite <- Qcmult_assoc, <- qpow10_add. replace (_ + _)%Z with 0%Z by lia. rewrite qpow10_0. ring. }
  assert (NP : (0 <= n0 < p10 P)%Z).
  { split.
    - apply rhe_nonneg. pose proof (qpow10_pos (Z.of_nat P - 1 - e0)) as Q.
      rewrite <- (Qcmult_0_l (qpow10 (Z.of_nat P - 1 - e0))). apply Qcmult_le_compat_r; now apply Qclt_le_weak.
    - apply zq_lt_inv. rewrite <- V, <- qpow10_nat.
      replace (Z.of_nat P) with (e0 + 1 + (Z.of_nat P - 1 - e0))%Z at 2 by lia. rewrite qpow10_add.
      apply Qcmult_lt_compat_r; [apply qpow10_pos|exact F2]. }
  destruct (Z.eqb_spec n0 (p10 P)) as [X|X]; [lia|].
  replace ((-4 <=? e0) && (e0 <? Z.of_nat P))%Z with true by (symmetry; apply andb_true_intro; split; [apply Z.leb_le|apply Z.ltb_lt]; lia).
  exists n0, (Z.to_nat (Z.of_nat P - 1 - e0)). split; [reflexivity|]. split; [lia|].
  rewrite dec_qpow, <- RE. f_equal. f_equal. lia.
Qed.

(** The decimals written do not end in 0, so there are no more than needed. *)
Lemma decimals_few n k m d : (0 <= n)%Z -> dec n k = dec m d ->
  (List.length (rstrip_p (ceq "0"%char) (dig k (n mod p10 k))) <= d)%nat.
Proof.
  intros Hn E. set (b := rstrip_p _ _). destruct (le_lt_dec (List.length b) d) as [H|H]; [exact H|exfalso].
  destruct (rstrip_dig_val (show_nat (n / p10 k)) (dig k (n mod p10 k)) k (dig_digits _ _) (dig_length _ _)) as [V D]. fold b in V, D.
  assert (VV : dec (dval (show_nat (n / p10 k) ++ dig k (n mod p10 k))) k = dec n k).
  { f_equal. pose proof (p10_pos k). rewrite dval_app, dval_show_nat, dval_dig, dig_length by (apply Z.div_pos; lia). fold (p10 k).
    rewrite Z.mod_mod by lia. pose proof (Z.div_mod n (p10 k) ltac:(lia)). lia. }
  rewrite VV, E in V. set (x := dval (show_nat (n / p10 k) ++ b)) in *.
  assert (X : (x = m * p10 (List.length b - d))%Z).
  { assert (Q : zq x = zq (m * p10 (List.length b - d))).
    { assert (DE : forall a j, zq a = dec a j * zq (p10 j)) by (intros a j; unfold dec; field; apply zq_p10_nonzero).
      rewrite (DE x (List.length b)), V, zq_mult, (DE m d). replace (List.length b) with (d + (List.length b - d))%nat at 1 by lia.
      rewrite p10_add, zq_mult. ring. }
    now apply zq_inj in Q. }
  destruct (rev b) as [|c r] eqn:Er.
  { apply (f_equal (@List.length _)) in Er. rewrite rev_length in Er. cbn in Er. lia. }
  assert (Eb : b = rev r ++ [c]) by (rewrite <- (rev_involutive b), Er; reflexivity).
  assert (Dc : is_digit c = true) by (rewrite Eb, all_digits_app in D; apply andb_prop in D as [_ D]; cbn in D; now apply andb_prop in D).
  assert (C0 : digit_val c = 0%Z).
  { unfold x in X. rewrite Eb, app_assoc, dval_app in X. cbn [List.length] in X. rewrite app_length in X. cbn [List.length] in X.
    assert (dval [c] = digit_val c) as DC by (cbn; lia). rewrite DC in X.
    replace (List.length (rev r) + 1 - d)%nat with (S (List.length (rev r) - d)) in X by (rewrite Eb, app_length in H; cbn in H; lia).
    rewrite p10_S in X. pose proof (digit_val_range c Dc). change (10 ^ Z.of_nat 1)%Z with 10%Z in X. lia. }
  assert (c = "0"%char) by (rewrite <- (digit_val_chr c Dc), C0; reflexivity).
  exact (rstrip_zero_last _ _ _ Eb H0).
Qed.

Definition no_point (s : text) : Prop := ~ In "."%char s.
Lemma cut_at_none s : no_point s -> cut_at "."%char s = None.
Proof.
  induction s as [|c s IH]; intros N; [reflexivity|]. cbn [cut_at]. destruct (ceq c "."%char) eqn:E; [apply ceq_true in E; subst; exfalso; apply N; now left|].
  rewrite IH; [reflexivity|]. intros I. apply N. now right.
Qed.
Lemma cut_at_some s r : no_point s -> cut_at "."%char (s ++ "."%char :: r) = Some (s, r).
Proof.
  induction s as [|c s IH]; intros N; [reflexivity|]. cbn [app cut_at]. destruct (ceq c "."%char) eqn:E; [apply ceq_true in E; subst; exfalso; apply N; now left|].
  rewrite IH; [reflexivity|]. intros I. apply N. now right.
Qed.
Lemma digits_no_point s : all_digits s = true -> no_point s.
Proof.
  intros D I. unfold all_digits in D. rewrite forallb_forall in D. specialize (D _ I). discriminate.
Qed.
Lemma decimal_finish p n k precision (padding : bool) v : no_point p -> (0 <= n)%Z ->
  (List.length (rstrip_p (ceq "0"%char) (dig k (n mod p10 k))) <= precision)%nat -> fmt_g 10 v = p ++ show_fixed n k ->
  exists a b, decimal_string v precision padding = p ++ a ++ "."%char :: b /\ all_digits a = true /\ a <> [] /\ all_digits b = true /\
    dec (dval (a ++ b)) (List.length b) = dec n k /\ (List.length b <= precision)%nat /\ (padding = true -> List.length b = precision) /\ ((1 <= precision)%nat -> b <> []).
Proof.
  intros Np Hn L F. unfold decimal_string. rewrite F. unfold show_fixed.
  destruct (rstrip_dig_val (show_nat (n / p10 k)) (dig k (n mod p10 k)) k (dig_digits _ _) (dig_length _ _)) as [V D].
  assert (VV : dec (dval (show_nat (n / p10 k) ++ dig k (n mod p10 k))) k = dec n k).
  { f_equal. pose proof (p10_pos k). rewrite dval_app, dval_show_nat, dval_dig, dig_length by (apply Z.div_pos; lia). fold (p10 k).
    rewrite Z.mod_mod by lia. pose proof (Z.div_mod n (p10 k) ltac:(lia)). lia. }
  rewrite VV in V. set (b := rstrip_p (ceq "0"%char) (dig k (n mod p10 k))) in *. set (a := show_nat (n / p10 k)) in *.
  assert (Da : all_digits a = true) by apply show_nat_digits. assert (Na : a <> []) by apply show_nat_nonempty.
  assert (NPa : no_point (p ++ a)) by (intros I; apply in_app_or in I as [I|I]; [now apply Np|exact (digits_no_point _ Da I)]).
  assert (Z0 : forall j, all_digits (zeros j) = true) by (intros j; apply zeros_digits).
  assert (SH : forall c j, dec (dval (a ++ c ++ zeros j)) (List.length (c ++ zeros j)) = dec (dval (a ++ c)) (List.length c)).
  { intros c j. rewrite app_assoc, (dval_app (a ++ c)), dval_zeros, zeros_length, Z.add_0_r, app_length, zeros_length. apply dec_shift. }
  destruct b as [|x b'] eqn:Eb.
  - rewrite app_nil_r. rewrite cut_at_none by exact NPa. cbn [List.length] in V, L. rewrite app_nil_r in V.
    destruct precision as [|precision].
    + exists a, []. cbn [Nat.ltb Nat.leb T list_ascii_of_string List.length firstn]. rewrite <- app_assoc, app_nil_r. repeat split; auto. lia.
    + cbn [T list_ascii_of_string List.length]. replace (S precision <? 1)%nat with false by (symmetry; apply Nat.ltb_ge; lia).
      change ["0"%char] with (zeros 1). destruct padding.
      * exists a, (zeros 1 ++ zeros (S precision - 1)). rewrite <- app_assoc. split; [reflexivity|]. split; [exact Da|]. split; [exact Na|].
        split; [rewrite all_digits_app, !Z0; reflexivity|]. split; [|rewrite app_length, !zeros_length; split; [lia|split; [lia|discriminate]]].
        rewrite SH. rewrite <- V. specialize (SH [] 1%nat). cbn [app List.length] in SH. rewrite app_nil_r in SH. exact SH.
      * exists a, (zeros 1). rewrite <- app_assoc. split; [reflexivity|]. split; [exact Da|]. split; [exact Na|]. split; [apply Z0|].
        split; [|rewrite zeros_length; split; [lia|split; discriminate]]. rewrite <- V. specialize (SH [] 1%nat). cbn [app List.length] in SH. rewrite app_nil_r in SH. exact SH.
  - rewrite <- Eb in *. replace (match b with [] => [] | _ :: _ => "."%char :: b end) with ("."%char :: b) by (rewrite Eb; reflexivity).
    rewrite app_assoc, cut_at_some by exact NPa. replace (precision <? List.length b)%nat with false by (symmetry; apply Nat.ltb_ge; exact L).
    destruct padding.
    + exists a, (b ++ zeros (precision - List.length b)). rewrite <- app_assoc. split; [reflexivity|]. split; [exact Da|]. split; [exact Na|].
      split; [rewrite all_digits_app, D, Z0; reflexivity|]. split; [rewrite SH; exact V|]. rewrite app_length, zeros_length. split; [lia|]. split; [lia|]. rewrite Eb. discriminate.
    + exists a, b. rewrite <- app_assoc. repeat split; auto; [discriminate|]. rewrite Eb. discriminate.
Qed.

Lemma C64_lemma k d precision (padding : bool) : (Z.abs k < 10 ^ 10)%Z -> (d <= precision)%nat ->
  (k = 0%Z \/ (10 ^ Z.of_nat d <= 10 ^ 4 * Z.abs k)%Z) ->
  exists a b, decimal_string (grid k d) precision padding = (if (k <? 0)%Z then T "-" else []) ++ a ++ T "." ++ b /\
    digit_string a /\ a <> [] /\ digit_string b /\ grid (int_of (a ++ b)) (List.length b) = grid (Z.abs k) d /\
    (List.length b <= precision)%nat /\ (padding = true -> List.length b = precision) /\ ((1 <= precision)%nat -> b <> []).
Proof.
  intros K Hd HK.
  assert (G : exists n j, fmt_g 10 (grid k d) = (if (k <? 0)%Z then T "-" else []) ++ show_fixed n j /\ (0 <= n)%Z /\ dec n j = dec (Z.abs k) d).
  { assert (PO : forall m, (0 < m < 10 ^ 10)%Z -> (10 ^ Z.of_nat d <= 10 ^ 4 * m)%Z -> exists n j, fmt_g_pos 10 (dec m d) = show_fixed n j /\ (0 <= n)%Z /\ dec m d = dec n j).
    { intros m Hm H4. apply (fmt_g_pos_exact 10 (dec m d) m (- Z.of_nat d)); [lia|exact Hm|apply dec_qpow|].
      pose proof (zq_p10_pos d) as PP.
      assert (P0 : 0 < dec m d).
      { apply (qc_mult_lt_r _ _ _ PP). rewrite dec_mult, Qcmult_0_l, <- zq_0. apply zq_lt. lia. }
      apply flog10_range; [exact P0| |].
      - apply (qc_mult_le_r _ _ _ PP). rewrite dec_mult. assert (P4 : 0 < zq 10000) by (rewrite <- zq_0; now apply zq_lt).
        apply (qc_mult_le_r _ _ _ P4). replace (zq 1 / zq 10000 * zq (p10 d) * zq 10000) with (zq (p10 d)) by (rewrite zq_1; field; intros X; rewrite X in P4; discriminate).
        rewrite <- zq_mult. apply zq_le. unfold p10. lia.
      - apply (qc_mult_lt_r _ _ _ PP). rewrite dec_mult, <- zq_mult. apply zq_lt. pose proof (p10_pos d). change (p10 10) with (10 ^ 10)%Z. nia. }
    rewrite grid_dec. unfold fmt_g. destruct (qceq_spec (dec k d) 0) as [E0|E0].
    { assert (k = 0%Z) as ->.
      { apply (f_equal (fun v => v * zq (p10 d))) in E0. rewrite dec_mult, Qcmult_0_l, <- zq_0 in E0. now apply zq_inj in E0. }
      exists 0%Z, 0%nat. split; [reflexivity|]. split; [lia|]. change (Z.abs 0) with 0%Z.
      assert (DZ : forall j, dec 0 j = 0) by (intros j; unfold dec; rewrite zq_0; field; apply zq_p10_nonzero). now rewrite !DZ. }
    assert (K0 : k <> 0%Z).
    { intros ->. apply E0. unfold dec. rewrite zq_0. field. apply zq_p10_nonzero. }
    destruct HK as [HK|HK]; [contradiction|]. pose proof (zq_p10_pos d) as PP.
    assert (SG : qclt (dec k d) 0 = (k <? 0)%Z).
    { destruct (qclt_spec (dec k d) 0) as [H|H]; destruct (Z.ltb_spec k 0) as [L|L]; try reflexivity; exfalso.
      - apply (proj1 (qc_mult_lt_r _ _ _ PP)) in H. rewrite dec_mult, Qcmult_0_l, <- zq_0 in H. apply zq_lt_inv in H. lia.
      - apply H. apply (qc_mult_lt_r _ _ _ PP). rewrite dec_mult, Qcmult_0_l, <- zq_0. apply zq_lt. lia. }
    rewrite SG. destruct (Z.ltb_spec k 0) as [L|L].
    - rewrite <- dec_opp. destruct (PO (- k)%Z) as (n & j & F & Hn & E); [lia|lia|]. exists n, j. rewrite F. repeat split; auto. now rewrite <- E, Z.abs_neq by lia.
    - destruct (PO k) as (n & j & F & Hn & E); [lia|lia|]. exists n, j. rewrite F. repeat split; auto. now rewrite <- E, Z.abs_eq by lia. }
  destruct G as (n & j & F & Hn & E).
  destruct (decimal_finish (if (k <? 0)%Z then T "-" else []) n j precision padding (grid k d)) as (a & b & D & Da & Na & Db & V & L & LP & NB).
  - destruct (k <? 0)%Z; [intros [X|[]]; discriminate|intros []].
  - exact Hn.
  - pose proof (decimals_few n j (Z.abs k) d Hn E). lia.
  - exact F.
  - exists a, b. split; [exact D|]. repeat split; auto; try now apply digit_string_iff.
    rewrite !grid_dec, int_of_dval by (apply digit_string_iff; rewrite all_digits_app, Da, Db; reflexivity). now rewrite V.
Qed.
