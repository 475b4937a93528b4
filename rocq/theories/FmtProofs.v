(** Lemmas about '%.Pg' (FmtModel.v): what reading the written text gives. *)
From Verif Require Import PyBase QcLib NumModel NumSpec NumProofs FmtModel.
Open Scope Qc_scope.

Lemma qpow10_frac e a b : e = (Z.of_nat b - Z.of_nat a)%Z -> qpow10 e = zq (p10 b) / zq (p10 a).
Proof.
  intros ->. unfold qpow10. destruct (Z.ltb_spec (Z.of_nat b - Z.of_nat a) 0) as [H|H].
  - replace (Z.to_nat (- (Z.of_nat b - Z.of_nat a))) with (a - b)%nat by lia.
    replace a with (b + (a - b))%nat at 2 by lia. rewrite p10_add, zq_mult. unfold dec.
    rewrite zq_1. field. split; apply zq_p10_nonzero.
  - replace (Z.to_nat (Z.of_nat b - Z.of_nat a)) with (b - a)%nat by lia.
    replace b with (a + (b - a))%nat at 2 by lia. rewrite p10_add, zq_mult. field. apply zq_p10_nonzero.
Qed.

Lemma z_frac e : exists a b, e = (Z.of_nat b - Z.of_nat a)%Z.
Proof. exists (Z.to_nat (- e)), (Z.to_nat e). lia. Qed.

Lemma qpow10_add a b : qpow10 (a + b) = qpow10 a * qpow10 b.
Proof.
  destruct (z_frac a) as (a1 & a2 & Ea), (z_frac b) as (b1 & b2 & Eb).
  rewrite (qpow10_frac a a1 a2 Ea), (qpow10_frac b b1 b2 Eb), (qpow10_frac (a + b) (a1 + b1) (a2 + b2)) by lia.
  rewrite !p10_add, !zq_mult. field. split; apply zq_p10_nonzero.
Qed.

Lemma qpow10_nat k : qpow10 (Z.of_nat k) = zq (p10 k).
Proof. rewrite (qpow10_frac _ 0 k) by lia. rewrite p10_0, zq_1. unfold Qcdiv. change (/ 1)%Qc with 1%Qc. ring. Qed.

Lemma qpow10_0 : qpow10 0 = 1.
Proof. change 0%Z with (Z.of_nat 0). rewrite qpow10_nat, p10_0. apply zq_1. Qed.

Lemma qpow10_pos e : 0 < qpow10 e.
Proof.
  destruct (z_frac e) as (a & b & E). rewrite (qpow10_frac e a b E).
  pose proof (zq_p10_pos a) as Ha. pose proof (zq_p10_pos b) as Hb.
  unfold Qcdiv. rewrite <- (Qcmult_0_l (/ zq (p10 a))). apply Qcmult_lt_compat_r; [|exact Hb].
  assert (E1 : / zq (p10 a) = zq (p10 a) * (/ zq (p10 a) * / zq (p10 a))) by (field; apply zq_p10_nonzero).
  destruct (Qclt_le_dec 0 (/ zq (p10 a))) as [L|L]; [exact L|exfalso].
  apply Qcle_not_lt in L. apply L. clear L.
  apply (proj2 (qclt_true _ _)) in Ha. apply qclt_true in Ha.
  unfold Qclt in *. rewrite this_inv. apply Qinv_lt_0_compat. exact Ha.
Qed.

Lemma qpow10_nonzero e : qpow10 e <> 0.
Proof. pose proof (qpow10_pos e) as H. intros E. rewrite E in H. exact (Qclt_not_eq _ _ H eq_refl). Qed.

Lemma qpow10_opp e : qpow10 (- e) = / qpow10 e.
Proof.
  assert (qpow10 (- e) * qpow10 e = 1) by (rewrite <- qpow10_add; replace (- e + e)%Z with 0%Z by lia; apply qpow10_0).
  rewrite <- (Qcmult_1_l (/ qpow10 e)), <- H. field. apply qpow10_nonzero.
Qed.

Lemma dec_qpow n k : dec n k = zq n * qpow10 (- Z.of_nat k).
Proof. rewrite qpow10_opp, qpow10_nat. reflexivity. Qed.

(** ** floor of log10 *)

Lemma ndig_range n : (1 <= n)%Z -> (10 ^ (Z.of_nat (ndig n) - 1) <= n < 10 ^ Z.of_nat (ndig n))%Z.
Proof.
  intros H. split; [|apply ndig_bound; lia]. destruct (Z.ltb_spec n 10) as [L|L]; [|now apply ndig_low].
  assert (ndig n <= 1)%nat by (apply ndig_le; [change (10 ^ Z.of_nat 1)%Z with 10%Z; lia|lia]).
  pose proof (ndig_pos n). replace (Z.of_nat (ndig n) - 1)%Z with 0%Z by lia. lia.
Qed.

Lemma qc_frac v : v * zq (Zpos (Qden (this v))) = zq (Qnum (this v)).
Proof. apply qc_eq_iff. rewrite this_mult, !this_zq. destruct v as [[n m] H]. cbn. unfold Qeq; cbn. lia. Qed.

Lemma frac_le v n m a b : (0 < m)%Z -> v * zq m = zq n ->
  (zq (p10 b) / zq (p10 a) <= v <-> (p10 b * m <= n * p10 a)%Z).
Proof.
  intros Hm E. pose proof (zq_p10_pos a) as Ha.
  assert (Hm' : 0 < zq m) by (rewrite <- zq_0; now apply zq_lt).
  rewrite (qc_mult_le_r _ _ (zq (p10 a))) by auto.
  rewrite (qc_mult_le_r _ _ (zq m)) by auto.
  replace (zq (p10 b) / zq (p10 a) * zq (p10 a) * zq m) with (zq (p10 b * m))
    by (rewrite zq_mult; field; apply zq_p10_nonzero).
  replace (v * zq (p10 a) * zq m) with (zq (n * p10 a)) by (rewrite zq_mult, <- E; ring).
  apply zq_le.
Qed.

Lemma flog10_spec v : 0 < v -> qpow10 (flog10 v) <= v /\ v < qpow10 (flog10 v + 1).
Proof.
  intros Hv. pose proof (qc_frac v) as E. unfold flog10.
  set (n := Qnum (this v)) in *. set (m := Zpos (Qden (this v))) in *.
  assert (Hm : (0 < m)%Z) by reflexivity.
  assert (Hn : (0 < n)%Z).
  { apply zq_lt. rewrite <- E, zq_0. rewrite <- (Qcmult_0_l (zq m)). apply Qcmult_lt_compat_r; [|exact Hv].
    rewrite <- zq_0. now apply zq_lt. }
  assert (K : forall e a1 b1 a2 b2, e = (Z.of_nat b1 - Z.of_nat a1)%Z -> (e + 1 = Z.of_nat b2 - Z.of_nat a2)%Z ->
     (p10 b1 * m <= n * p10 a1)%Z -> (n * p10 a2 < p10 b2 * m)%Z -> qpow10 e <= v /\ v < qpow10 (e + 1)).
  { intros e a1 b1 a2 b2 E1 E2 H1 H2. rewrite (qpow10_frac _ _ _ E1), (qpow10_frac _ _ _ E2). split.
    - now apply (frac_le v n m).
    - apply Qcnot_le_lt. intros C. apply (frac_le v n m) in C; [lia|exact Hm|exact E]. }
  destruct (Z.leb_spec m n) as [L|L].
  - set (q := (n / m)%Z). assert (Hq : (1 <= q)%Z) by (apply Z.div_le_lower_bound; lia).
    pose proof (ndig_range q Hq) as [R1 R2]. pose proof (ndig_pos q) as NP.
    pose proof (Z.div_mod n m ltac:(lia)) as DM. pose proof (Z.mod_pos_bound n m Hm) as MB. fold q in DM.
    apply (K _ 0 (ndig q - 1) 0 (ndig q))%nat; try lia; rewrite p10_0; unfold p10.
    + replace (Z.of_nat (ndig q - 1)) with (Z.of_nat (ndig q) - 1)%Z by lia. nia.
    + nia.
  - set (c := ((m + n - 1) / n)%Z). set (q := (c - 1)%Z).
    pose proof (Z.div_mod (m + n - 1) n ltac:(lia)) as DM. pose proof (Z.mod_pos_bound (m + n - 1) n Hn) as MB. fold c in DM.
    assert (Hq : (1 <= q)%Z).
    { unfold q. assert (2 <= c)%Z; [|lia]. apply Z.div_le_lower_bound; lia. }
    pose proof (ndig_range q Hq) as [R1 R2]. pose proof (ndig_pos q) as NP.
    apply (K _ (ndig q) 0 (ndig q - 1) 0)%nat; try lia; rewrite p10_0; unfold p10.
    + unfold q in *. nia.
    + replace (Z.of_nat (ndig q - 1)) with (Z.of_nat (ndig q) - 1)%Z by lia. unfold q in *. nia.
Qed.

(** ** Reading the text *)

Lemma rstrip_dig_val a ds k : all_digits ds = true -> List.length ds = k ->
  let b := rstrip_p (ceq "0"%char) ds in
  dec (dval (a ++ b)) (List.length b) = dec (dval (a ++ ds)) k /\ all_digits b = true.
Proof.
  intros D Lk b. destruct (rstrip_zero_split ds) as [j E]. fold b in E.
  assert (Lb : k = (List.length b + j)%nat).
  { rewrite <- Lk, E at 1. rewrite app_length, zeros_length. reflexivity. }
  split.
  - rewrite E, app_assoc, (dval_app (a ++ b)), dval_zeros, zeros_length, Z.add_0_r, Lb.
    symmetry. apply dec_shift.
  - rewrite E, all_digits_app in D. now apply andb_prop in D.
Qed.

Lemma with_exponent_show v e : with_exponent v (show_exp e) = Ok (v * qpow10 e).
Proof.
  unfold show_exp.
  assert (D : forall a, (0 <= a)%Z -> let ds := if (a <? 10)%Z then "0"%char :: show_nat a else show_nat a in
     all_digits ds = true /\ dval ds = a /\ exists c r, ds = c :: r /\ is_digit c = true).
  { intros a Ha. pose proof (show_nat_digits a) as SD. cbv zeta. destruct (a <? 10)%Z.
    - split; [exact SD|]. split; [|eauto]. rewrite dval_cons, dval_show_nat by auto. reflexivity.
    - split; [exact SD|]. split; [now apply dval_show_nat|].
      destruct (show_nat a) as [|c r] eqn:E; [now apply show_nat_nonempty in E|].
      exists c, r. split; [reflexivity|]. cbn in SD. now apply andb_prop in SD. }
  destruct (D (Z.abs e) ltac:(lia)) as (D1 & D2 & c & r & D3 & D4). cbv zeta in *. rewrite D3 in *.
  destruct (Z.ltb_spec e 0) as [H|H]; cbn [app T list_ascii_of_string]; unfold with_exponent.
  - change (ceq "e" "e" || ceq "e" "E") with true. change (ceq "-" "-") with true. cbv iota beta.
    rewrite D1, D2. f_equal. f_equal. f_equal. lia.
  - change (ceq "e" "e" || ceq "e" "E") with true. change (ceq "+" "-") with false. change (ceq "+" "+") with true.
    cbv iota beta. rewrite D1, D2. f_equal. f_equal. f_equal. lia.
Qed.

(** What may follow the fixed-point text. *)
Definition exp_tail (t : text) : Prop := t = [] \/ exists e, t = show_exp e.

Lemma exp_tail_head t : exp_tail t -> match t with c :: _ => c = "e"%char | [] => True end.
Proof.
  intros [->|[e ->]]; [exact I|]. unfold show_exp. destruct (e <? 0)%Z; reflexivity.
Qed.

Lemma py_float_unsigned_fixed n k t : (0 <= n)%Z -> exp_tail t ->
  py_float_unsigned (show_fixed n k ++ t) = with_exponent (dec n k) t.
Proof.
  intros Hn Ht. unfold show_fixed. pose proof (p10_pos k) as Pk.
  assert (Hq : (0 <= n / p10 k)%Z) by (apply Z.div_pos; lia).
  destruct (rstrip_dig_val (show_nat (n / p10 k)) (dig k (n mod p10 k)) k (dig_digits _ _) (dig_length _ _)) as [V D].
  assert (VV : dec (dval (show_nat (n / p10 k) ++ dig k (n mod p10 k))) k = dec n k).
  { f_equal. rewrite dval_app, dval_show_nat, dval_dig, dig_length by auto. fold (p10 k).
    rewrite Z.mod_mod by lia. pose proof (Z.div_mod n (p10 k) ltac:(lia)). lia. }
  rewrite VV in V. set (b := rstrip_p (ceq "0"%char) (dig k (n mod p10 k))) in *.
  set (a := show_nat (n / p10 k)) in *.
  assert (Da : all_digits a = true) by apply show_nat_digits.
  assert (Na : a <> []) by apply show_nat_nonempty.
  pose proof (exp_tail_head t Ht) as HT.
  assert (HT' : match t with c :: _ => is_digit c = false | [] => True end) by (destruct t; [exact I|now subst]).
  clearbody b. destruct b as [|c b'].
  - rewrite app_nil_r in *. cbn [List.length] in V. rewrite <- V. unfold py_float_unsigned.
    rewrite (span_digits_all a t) by auto.
    destruct t as [|x t].
    + destruct a; [contradiction|reflexivity].
    + subst x. change (ceq "e" ".") with false. cbv iota. destruct a; [contradiction|reflexivity].
  - rewrite <- V. unfold py_float_unsigned. rewrite <- app_assoc. cbn [app].
    rewrite (span_digits_all a) by (auto; reflexivity). change (ceq "." ".") with true. cbv iota.
    change (c :: b' ++ t) with ((c :: b') ++ t).
    rewrite (span_digits_all (c :: b') t) by auto.
    destruct (a ++ c :: b') eqn:E; [destruct a; discriminate|reflexivity].
Qed.

(** The value written: v rounded to P significant digits. *)
Definition round_sig (P : nat) (v : Qc) : Qc :=
  zq (rhe (v * qpow10 (Z.of_nat P - 1 - flog10 v))) * qpow10 (flog10 v - (Z.of_nat P - 1)).

Lemma show_fixed_head n k t : exists c r, show_fixed n k ++ t = c :: r /\ is_digit c = true.
Proof.
  unfold show_fixed. pose proof (show_nat_digits (n / p10 k)) as D.
  destruct (show_nat (n / p10 k)) as [|c r] eqn:E; [now apply show_nat_nonempty in E|].
  cbn in D. apply andb_prop in D as [D _]. cbn [app]. eauto.
Qed.

Lemma show_nat_last n : exists r c, show_nat n = r ++ [c] /\ is_digit c = true.
Proof.
  pose proof (show_nat_digits n) as D. destruct (exists_last (show_nat_nonempty n)) as (r & c & E).
  exists r, c. split; [exact E|]. rewrite E, all_digits_app in D. apply andb_prop in D as [_ D]. cbn in D.
  now apply andb_prop in D as [D _].
Qed.

Lemma show_exp_last e : exists r c, show_exp e = r ++ [c] /\ is_digit c = true.
Proof.
  unfold show_exp. destruct (show_nat_last (Z.abs e)) as (r & c & E & D).
  set (h := if (e <? 0)%Z then T "e-" else T "e+"). cbv zeta. destruct (Z.abs e <? 10)%Z; rewrite E.
  - exists (h ++ "0"%char :: r), c. split; [|exact D]. rewrite <- app_assoc. reflexivity.
  - exists (h ++ r), c. split; [|exact D]. rewrite <- app_assoc. reflexivity.
Qed.

Lemma show_fixed_last n k : exists r c, show_fixed n k = r ++ [c] /\ is_digit c = true.
Proof.
  unfold show_fixed. destruct (rstrip_p (ceq "0"%char) (dig k (n mod p10 k))) as [|c0 b] eqn:E.
  - rewrite app_nil_r. apply show_nat_last.
  - destruct (rstrip_dig_val [] (dig k (n mod p10 k)) k (dig_digits _ _) (dig_length _ _)) as [_ D].
    rewrite E in D. destruct (exists_last (l := c0 :: b) ltac:(discriminate)) as (r & c & E2). rewrite E2 in *.
    exists (show_nat (n / p10 k) ++ "."%char :: r), c. split.
    + rewrite <- app_assoc. reflexivity.
    + rewrite all_digits_app in D. apply andb_prop in D as [_ D]. cbn in D. now apply andb_prop in D as [D _].
Qed.

Definition nonspace_ends (s : text) : Prop :=
  (match s with c :: _ => is_space c = false | [] => True end) /\
  (match rev s with c :: _ => is_space c = false | [] => True end).

Lemma strip_ends s : nonspace_ends s -> strip s = s.
Proof.
  intros [H1 H2]. unfold strip, strip_p. rewrite (lstrip_p_id is_space s) by exact H1.
  unfold rstrip_p. rewrite lstrip_p_id by exact H2. apply rev_involutive.
Qed.

Lemma last_digit_strip s c r r' c' : s = c :: r -> is_digit c = true \/ c = "-"%char -> s = r' ++ [c'] -> is_digit c' = true ->
  strip s = s.
Proof.
  intros E D E' D'. apply strip_ends. split.
  - rewrite E. destruct D as [D| ->]; [now apply digit_not_space|reflexivity].
  - rewrite E', rev_app_distr. cbn. now apply digit_not_space.
Qed.

(** The text of a positive value. *)
Lemma fmt_g_pos_form P v : (1 <= P)%nat -> 0 < v -> exists n k t, fmt_g_pos P v = show_fixed n k ++ t /\
  (0 <= n)%Z /\ exp_tail t /\ with_exponent (dec n k) t = Ok (round_sig P v).
Proof.
  intros HP Hv. pose proof (flog10_spec v Hv) as [F1 F2]. unfold fmt_g_pos, round_sig.
  set (e0 := flog10 v) in *. set (n0 := rhe (v * qpow10 (Z.of_nat P - 1 - e0))).
  assert (N0 : (0 <= n0)%Z).
  { apply rhe_nonneg. pose proof (qpow10_pos (Z.of_nat P - 1 - e0)) as Q.
    rewrite <- (Qcmult_0_l (qpow10 (Z.of_nat P - 1 - e0))). apply Qcmult_le_compat_r; [now apply Qclt_le_weak|now apply Qclt_le_weak]. }
  assert (G : forall n e, (0 <= n)%Z -> zq n * qpow10 (e - (Z.of_nat P - 1)) = zq n0 * qpow10 (e0 - (Z.of_nat P - 1)) ->
    exists n' k t, (if ((-4 <=? e) && (e <? Z.of_nat P))%Z then show_fixed n (Z.to_nat (Z.of_nat P - 1 - e))
       else show_fixed n (P - 1) ++ show_exp e) = show_fixed n' k ++ t /\ (0 <= n')%Z /\ exp_tail t /\
       with_exponent (dec n' k) t = Ok (zq n0 * qpow10 (e0 - (Z.of_nat P - 1)))).
  { intros n e Hn E. destruct ((-4 <=? e) && (e <? Z.of_nat P))%Z eqn:B.
    - apply andb_prop in B as [_ B]. apply Z.ltb_lt in B.
      exists n, (Z.to_nat (Z.of_nat P - 1 - e)), []. rewrite app_nil_r. split; [reflexivity|]. split; [auto|].
      split; [now left|]. cbn [with_exponent]. rewrite <- E, dec_qpow. f_equal. f_equal. f_equal. lia.
    - exists n, (P - 1)%nat, (show_exp e). split; [reflexivity|]. split; [auto|]. split; [right; eauto|].
      rewrite with_exponent_show, <- E, dec_qpow, <- Qcmult_assoc, <- qpow10_add. f_equal. f_equal. f_equal. lia. }
  destruct (Z.eqb_spec n0 (p10 P)) as [E|E]; apply G; auto.
  - pose proof (p10_pos (P - 1)). lia.
  - rewrite E. replace P with (S (P - 1)) at 3 by lia. rewrite p10_S, zq_mult.
    replace (zq 10) with (qpow10 1) by (apply qc_eq_iff; reflexivity).
    rewrite (Qcmult_comm (qpow10 1)), <- Qcmult_assoc, <- qpow10_add. f_equal. f_equal. lia.
Qed.

Lemma with_exponent_tail_last n k t : exp_tail t -> exists r c, show_fixed n k ++ t = r ++ [c] /\ is_digit c = true.
Proof.
  intros [->|[e ->]]; [rewrite app_nil_r; apply show_fixed_last|].
  destruct (show_exp_last e) as (r & c & -> & D). exists (show_fixed n k ++ r), c. rewrite app_assoc. auto.
Qed.

Definition round_sig_signed (P : nat) (v : Qc) : Qc :=
  if qceq v 0 then 0 else if qclt v 0 then - round_sig P (- v) else round_sig P v.

Lemma py_float_fmt_g P v : (1 <= P)%nat -> py_float (fmt_g P v) = Ok (round_sig_signed P v).
Proof.
  intros HP. unfold fmt_g, round_sig_signed. destruct (qceq_spec v 0) as [->|Hz]; [reflexivity|].
  destruct (qclt_spec v 0) as [H|H].
  - destruct (fmt_g_pos_form P (- v) HP ltac:(qclra)) as (n & k & t & -> & Hn & Ht & Hw).
    destruct (with_exponent_tail_last n k t Ht) as (r & c & E & D). unfold py_float.
    rewrite (last_digit_strip ("-"%char :: show_fixed n k ++ t) "-"%char (show_fixed n k ++ t) ("-"%char :: r) c); auto.
    + change (ceq "-" "-") with true. cbv iota. rewrite py_float_unsigned_fixed, Hw by auto. reflexivity.
    + now rewrite E.
  - assert (Hv : 0 < v).
    { apply Qcnot_le_lt. intros C. apply Qcle_lt_or_eq in C as [C|C]; auto. }
    destruct (fmt_g_pos_form P v HP Hv) as (n & k & t & -> & Hn & Ht & Hw).
    destruct (with_exponent_tail_last n k t Ht) as (r & c & E & D). unfold py_float.
    destruct (show_fixed_head n k t) as (c0 & r0 & E0 & D0).
    rewrite (last_digit_strip (show_fixed n k ++ t) c0 r0 r c); auto.
    rewrite E0. rewrite (digit_neq c0 "-"%char), (digit_neq c0 "+"%char) by auto. rewrite <- E0.
    now rewrite py_float_unsigned_fixed, Hw by auto.
Qed.

(** ** At most P significant digits: exact *)

Lemma qpow10_lt a b : (a < b)%Z -> qpow10 a < qpow10 b.
Proof.
  intros H. destruct (z_frac a) as (a1 & a2 & Ea).
  assert (E : exists k, b = (a + Z.of_nat (S k))%Z) by (exists (Z.to_nat (b - a) - 1)%nat; lia).
  destruct E as [k ->]. rewrite qpow10_add, qpow10_nat. pose proof (qpow10_pos a) as P.
  assert (1 < zq (p10 (S k))).
  { rewrite <- zq_1. apply zq_lt. rewrite p10_S. pose proof (p10_pos k). lia. }
  rewrite <- (Qcmult_1_l (qpow10 a)) at 1. rewrite (Qcmult_comm (qpow10 a)). now apply Qcmult_lt_compat_r.
Qed.

Lemma qpow10_le_inv a b : qpow10 a < qpow10 b -> (a < b)%Z.
Proof.
  intros H. destruct (Z.ltb_spec a b) as [L|L]; [exact L|exfalso].
  apply Qclt_not_le in H. apply H. destruct (Z.eq_dec a b) as [->|N]; [apply Qcle_refl|].
  apply Qclt_le_weak, qpow10_lt. lia.
Qed.

Lemma round_sig_exact P v m e : (1 <= P)%nat -> (0 < m < p10 P)%Z -> v = zq m * qpow10 e -> round_sig P v = v.
Proof.
  intros HP Hm E. pose proof (qpow10_pos e) as Pe.
  assert (Hv : 0 < v).
  { rewrite E, <- (Qcmult_0_l (qpow10 e)). apply Qcmult_lt_compat_r; [exact Pe|]. rewrite <- zq_0. apply zq_lt. lia. }
  pose proof (flog10_spec v Hv) as [F1 F2]. unfold round_sig. set (e0 := flog10 v) in *.
  assert (L : (e0 < e + Z.of_nat P)%Z).
  { apply qpow10_le_inv. eapply Qcle_lt_trans; [exact F1|]. rewrite E, qpow10_add, qpow10_nat, (Qcmult_comm (qpow10 e)).
    apply Qcmult_lt_compat_r; [exact Pe|]. apply zq_lt. lia. }
  assert (S : v * qpow10 (Z.of_nat P - 1 - e0) = zq (m * p10 (Z.to_nat (e + (Z.of_nat P - 1 - e0))))).
  { rewrite zq_mult, <- qpow10_nat, Z2Nat.id by lia. rewrite E, <- Qcmult_assoc, <- qpow10_add. reflexivity. }
  rewrite S, rhe_zq, <- S, <- Qcmult_assoc, <- qpow10_add.
  replace (Z.of_nat P - 1 - e0 + (e0 - (Z.of_nat P - 1)))%Z with 0%Z by lia. rewrite qpow10_0. ring.
Qed.

Lemma round_sig_signed_exact P v m e : (1 <= P)%nat -> (Z.abs m < p10 P)%Z -> v = zq m * qpow10 e ->
  round_sig_signed P v = v.
Proof.
  intros HP Hm E. unfold round_sig_signed. destruct (qceq_spec v 0) as [->|Hz]; [reflexivity|].
  pose proof (qpow10_pos e) as Pe.
  assert (Mz : m <> 0%Z) by (intros ->; apply Hz; rewrite E, zq_0; ring).
  destruct (qclt_spec v 0) as [H|H].
  - rewrite (round_sig_exact P (- v) (- m) e HP); [ring| |rewrite E, zq_opp; ring].
    assert (m < 0)%Z; [|lia]. destruct (Z.ltb_spec m 0) as [L|L]; [exact L|exfalso].
    apply Qclt_not_le in H. apply H. rewrite E, <- (Qcmult_0_l (qpow10 e)).
    apply Qcmult_le_compat_r; [rewrite <- zq_0; now apply zq_le|now apply Qclt_le_weak].
  - apply (round_sig_exact P v m e HP); [|exact E].
    assert (0 < m)%Z; [|lia]. destruct (Z.ltb_spec 0 m) as [L|L]; [exact L|exfalso]. apply H.
    rewrite E, <- (Qcmult_0_l (qpow10 e)). apply Qcmult_lt_compat_r; [exact Pe|]. rewrite <- zq_0. apply zq_lt. lia.
Qed.

Lemma round_sig_signed_opp P v : round_sig_signed P (- v) = - round_sig_signed P v.
Proof.
  unfold round_sig_signed. destruct (qceq_spec v 0) as [->|Hz]; [reflexivity|].
  destruct (qceq_spec (- v) 0) as [E|Hz']; [exfalso; apply Hz; qclra|].
  destruct (qclt_spec v 0), (qclt_spec (- v) 0); try (exfalso; qclra).
  - ring.
  - f_equal. f_equal. ring.
  - exfalso. apply Hz. qclra.
Qed.

(** ** Otherwise: off by at most half a unit of the last digit *)

Lemma round_sig_close P v : (1 <= P)%nat -> 0 < v ->
  qabs (v - round_sig P v) <= Q2Qc (1 # 2) * qpow10 (flog10 v - (Z.of_nat P - 1)).
Proof.
  intros HP Hv. unfold round_sig. set (e := (Z.of_nat P - 1 - flog10 v)%Z).
  replace (flog10 v - (Z.of_nat P - 1))%Z with (- e)%Z by lia.
  pose proof (rhe_spec (v * qpow10 e)) as [H _]. pose proof (qpow10_pos (- e)) as Q.
  assert (E : v - zq (rhe (v * qpow10 e)) * qpow10 (- e) = (v * qpow10 e - zq (rhe (v * qpow10 e))) * qpow10 (- e)).
  { rewrite qpow10_opp. field. apply qpow10_nonzero. }
  rewrite E. set (x := v * qpow10 e - _) in *.
  assert (A : qabs (x * qpow10 (- e)) = qabs x * qpow10 (- e)).
  { unfold qabs. destruct (Qclt_le_dec x 0) as [L|L], (Qclt_le_dec (x * qpow10 (- e)) 0) as [M|M]; try ring.
    - exfalso. apply Qcle_not_lt in M. apply M. rewrite <- (Qcmult_0_l (qpow10 (- e))). now apply Qcmult_lt_compat_r.
    - exfalso. apply Qclt_not_le in M. apply M. rewrite <- (Qcmult_0_l (qpow10 (- e))).
      apply Qcmult_le_compat_r; [exact L|now apply Qclt_le_weak]. }
  rewrite A. apply Qcmult_le_compat_r; [exact H|now apply Qclt_le_weak].
Qed.

(** Relative error at most 10^(1-P) / 2. *)
Lemma round_sig_relative P v : (1 <= P)%nat -> 0 < v ->
  qabs (v - round_sig P v) <= Q2Qc (1 # 2) * dec 1 (P - 1) * v.
Proof.
  intros HP Hv. eapply Qcle_trans; [now apply round_sig_close|].
  pose proof (flog10_spec v Hv) as [F _].
  replace (flog10 v - (Z.of_nat P - 1))%Z with (- Z.of_nat (P - 1) + flog10 v)%Z by lia.
  rewrite qpow10_add, dec_qpow, zq_1, Qcmult_1_l.
  rewrite (Qcmult_assoc (Q2Qc (1 # 2))), (Qcmult_comm _ (qpow10 (flog10 v))), (Qcmult_comm _ v).
  apply Qcmult_le_compat_r; [exact F|].
  apply Qclt_le_weak. rewrite <- (Qcmult_0_l (qpow10 (- Z.of_nat (P - 1)))).
  apply Qcmult_lt_compat_r; [apply qpow10_pos|reflexivity].
Qed.
