(** Lemmas about writing aperture macros and reading them back. *)
From Coq Require Import Lqa.
From Verif Require Import PyBase QcLib NumModel NumSpec NumProofs FmtModel FmtProofs FloatCodec ReprModel ReprProofs
  Regex MacroModel MacroSpec MacroProofs SplitModel GerberText GerberTextSpec GerberTextProofs GerberEval IpcProofs WriterFile AmModel AmSpec AmProofs.
Open Scope Qc_scope.
Open Scope list_scope.

(** ** Written numbers are literals of the macro language *)
Definition is_lit (t : text) (v : Qc) : Prop :=
  exists l, lit_text l = t /\ lit_ok l /\ lit_value l = v /\ (v <> 0 -> l <> mkLit (T "0") None).
Definition reads_as (t : text) (v : Qc) : Prop :=
  exists m, mod_text m = t /\ mod_ok m /\ forall env, mod_value env m = Some v.

Lemma is_lit_reads t v : is_lit t v -> reads_as t v.
Proof.
  intros (l & E & O & V & _). exists (false, ETerm (TFac (FLit l))). split; [exact E|]. split; [|intros env; cbn; now rewrite V].
  split; [exact O|]. split; [exact I|]. discriminate.
Qed.
Lemma is_lit_reads_neg t v : v <> 0 -> is_lit t v -> reads_as ("-"%char :: t) (- v).
Proof.
  intros N (l & E & O & V & Z). exists (true, ETerm (TFac (FLit l))). split; [cbn; now rewrite <- E|].
  split; [|intros env; cbn; now rewrite V]. split; [exact O|]. split; [exact I|]. intros _. exists l. split; [reflexivity|auto].
Qed.

Lemma show_nat_lit_head q : (0 <= q)%Z -> show_nat q = T "0" \/ exists c r, show_nat q = c :: r /\ c <> "0"%char.
Proof.
  intros H. destruct (Z.eq_dec q 0) as [->|N]; [left; reflexivity|right]. destruct (show_nat_head q ltac:(lia)) as (c & r & E & _ & D). eauto.
Qed.
Lemma fixed_lit n k : (0 <= n)%Z -> is_lit (show_fixed n k) (dec n k).
Proof.
  intros Hn. pose proof (p10_pos k) as Pk. assert (Hq : (0 <= n / p10 k)%Z) by (apply Z.div_pos; lia).
  destruct (rstrip_dig_val (show_nat (n / p10 k)) (dig k (n mod p10 k)) k (dig_digits _ _) (dig_length _ _)) as [V D].
  assert (VV : dec (dval (show_nat (n / p10 k) ++ dig k (n mod p10 k))) k = dec n k).
  { f_equal. rewrite dval_app, dval_show_nat, dval_dig, dig_length by auto. fold (p10 k).
    rewrite Z.mod_mod by lia. pose proof (Z.div_mod n (p10 k) ltac:(lia)). lia. }
  cbv zeta in V. rewrite VV in V. unfold show_fixed. set (frac := rstrip_p (ceq "0"%char) (dig k (n mod p10 k))) in *.
  pose proof (show_nat_digits (n / p10 k)) as D0.
  destruct frac as [|c b] eqn:F.
  - exists (mkLit (show_nat (n / p10 k)) None). split; [reflexivity|]. split; [|split].
    + split; [now apply digit_string_iff|]. split; [exact I|]. cbn [l_int]. destruct (show_nat_lit_head _ Hq) as [E|E]; auto.
    + unfold lit_value. cbn [l_int l_dec]. rewrite grid_dec, int_of_dval by (apply digit_string_iff; rewrite app_nil_r; exact D0). exact V.
    + intros Hv E. apply Hv. rewrite <- V. injection E as ->. rewrite app_nil_r. reflexivity.
  - exists (mkLit (show_nat (n / p10 k)) (Some (c :: b))). split; [reflexivity|]. split; [|split; [|discriminate]].
    + split; [now apply digit_string_iff|]. split; [now apply digit_string_iff|]. cbn [l_int]. destruct (show_nat_lit_head _ Hq) as [E|E]; auto.
    + unfold lit_value. cbn [l_int l_dec]. rewrite grid_dec, int_of_dval by (apply digit_string_iff; rewrite all_digits_app, D0; exact D). exact V.
Qed.
Lemma point_lit n k : (0 <= n)%Z -> is_lit (show_point n k) (dec n k).
Proof.
  intros Hn. unfold show_point. destruct (rstrip_p (ceq "0"%char) (dig k (n mod p10 k))) as [|c b] eqn:F.
  - destruct (fixed_lit n k Hn) as (l & E & O & V & _). revert E. unfold show_fixed. rewrite F, app_nil_r. intros E.
    pose proof (p10_pos k) as Pk. assert (Hq : (0 <= n / p10 k)%Z) by (apply Z.div_pos; lia). pose proof (show_nat_digits (n / p10 k)) as D0.
    exists (mkLit (show_nat (n / p10 k)) (Some (T "0"))). split; [reflexivity|]. split; [|split; [|discriminate]].
    + split; [now apply digit_string_iff|]. split; [now apply digit_string_iff|]. cbn [l_int]. destruct (show_nat_lit_head _ Hq) as [X|X]; auto.
    + pose proof (py_float_unsigned_point n k Hn) as R. unfold show_point in R. rewrite F in R. unfold show_fixed in R. rewrite F, app_nil_r in R.
      unfold py_float_unsigned in R. change (T ".0") with ("."%char :: T "0") in R. rewrite (span_digits_all (show_nat (n / p10 k))) in R by (auto; reflexivity).
      change (ceq "." ".") with true in R. cbv iota in R. change (span_digits (T "0")) with (T "0", [] : text) in R. cbv iota beta in R.
      unfold lit_value. cbn [l_int l_dec]. rewrite grid_dec, int_of_dval by (apply digit_string_iff; rewrite all_digits_app, D0; reflexivity).
      destruct (show_nat (n / p10 k) ++ T "0"); [discriminate R|]. now apply ok_inj in R.
  - rewrite app_nil_r. apply fixed_lit. exact Hn.
Qed.

Lemma dec_pos_num n k : 0 < dec n k -> (0 < n)%Z.
Proof.
  intros H. unfold dec in H. destruct (Z.lt_trichotomy n 0) as [L|[->|L]]; [exfalso| exfalso |exact L].
  - pose proof (zq_p10_pos k) as P. apply Qclt_not_le in H. apply H. unfold Qcdiv.
    rewrite <- (Qcmult_0_l (/ zq (p10 k))). apply Qcmult_le_compat_r; [rewrite <- zq_0; apply zq_le; lia|].
    apply Qcnot_lt_le. intros C. assert (zq (p10 k) * / zq (p10 k) < zq (p10 k) * 0).
    { rewrite !(Qcmult_comm (zq (p10 k))). now apply Qcmult_lt_compat_r. }
    rewrite Qcmult_inv_r, Qcmult_0_r in H0 by apply zq_p10_nonzero. vm_compute in H0. discriminate H0.
  - rewrite zq_0 in H. unfold Qcdiv in H. rewrite Qcmult_0_l in H. now apply Qclt_not_eq in H.
Qed.

(** '%.Pg' without exponent. *)
Lemma round_exponent P v : (1 <= P)%nat -> 0 < v ->
  let e0 := flog10 v in let n0 := rhe (v * qpow10 (Z.of_nat P - 1 - e0)) in
  (p10 (P - 1) <= n0 <= p10 P)%Z.
Proof.
  intros HP Hv e0 n0. pose proof (flog10_spec v Hv) as [F1 F2]. fold e0 in F1, F2. pose proof (qpow10_pos (Z.of_nat P - 1 - e0)) as Q. split.
  - rewrite <- (rhe_zq (p10 (P - 1))). apply rhe_mono. rewrite <- qpow10_nat.
    replace (Z.of_nat (P - 1)) with (e0 + (Z.of_nat P - 1 - e0))%Z by lia. rewrite qpow10_add. apply Qcmult_le_compat_r; [exact F1|now apply Qclt_le_weak].
  - rewrite <- (rhe_zq (p10 P)). apply rhe_mono. rewrite <- qpow10_nat.
    replace (Z.of_nat P) with ((e0 + 1) + (Z.of_nat P - 1 - e0))%Z at 2 by lia. rewrite qpow10_add. apply Qcmult_le_compat_r; now apply Qclt_le_weak.
Qed.
Lemma round_sig_bounds P v : (1 <= P)%nat -> 0 < v -> qpow10 (flog10 v) <= round_sig P v /\ round_sig P v <= qpow10 (flog10 v + 1).
Proof.
  intros HP Hv. pose proof (round_exponent P v HP Hv) as [A B]. cbv zeta in A, B. unfold round_sig.
  set (e := flog10 v) in *. set (n := rhe _) in *. pose proof (qpow10_pos (e - (Z.of_nat P - 1))) as Q. split.
  - replace e with (Z.of_nat (P - 1) + (e - (Z.of_nat P - 1)))%Z at 1 by lia. rewrite qpow10_add, qpow10_nat.
    apply Qcmult_le_compat_r; [now apply zq_le|now apply Qclt_le_weak].
  - replace (e + 1)%Z with (Z.of_nat P + (e - (Z.of_nat P - 1)))%Z by lia. rewrite qpow10_add, qpow10_nat.
    apply Qcmult_le_compat_r; [now apply zq_le|now apply Qclt_le_weak].
Qed.

Lemma scaled_exponent P n e : (1 <= P)%nat -> (p10 (P - 1) <= n < p10 P)%Z -> flog10 (zq n * qpow10 (e - (Z.of_nat P - 1))) = e.
Proof.
  intros HP [A B]. pose proof (qpow10_pos (e - (Z.of_nat P - 1))) as Q. apply flog10_unique.
  - replace e with (Z.of_nat (P - 1) + (e - (Z.of_nat P - 1)))%Z at 1 by lia. rewrite qpow10_add, qpow10_nat.
    apply Qcmult_le_compat_r; [now apply zq_le|now apply Qclt_le_weak].
  - replace (e + 1)%Z with (Z.of_nat P + (e - (Z.of_nat P - 1)))%Z by lia. rewrite qpow10_add, qpow10_nat.
    apply Qcmult_lt_compat_r; [exact Q|now apply zq_lt].
Qed.
(** The digits and the exponent after rounding. *)
Lemma rounded P v : (1 <= P)%nat -> 0 < v -> exists n e, (p10 (P - 1) <= n < p10 P)%Z /\
  round_sig P v = zq n * qpow10 (e - (Z.of_nat P - 1)) /\
  (let e0 := flog10 v in let n0 := rhe (v * qpow10 (Z.of_nat P - 1 - e0)) in
   if (n0 =? p10 P)%Z then (p10 (P - 1), (e0 + 1)%Z) else (n0, e0)) = (n, e).
Proof.
  intros HP Hv. pose proof (round_exponent P v HP Hv) as [A B]. cbv zeta in *. unfold round_sig. set (e0 := flog10 v) in *. set (n0 := rhe _) in *.
  assert (P1 : p10 P = (10 * p10 (P - 1))%Z) by (replace P with (S (P - 1)) at 1 by lia; now rewrite p10_S). pose proof (p10_pos (P - 1)).
  destruct (Z.eqb_spec n0 (p10 P)) as [E|E].
  - exists (p10 (P - 1)), (e0 + 1)%Z. split; [lia|]. split; [|reflexivity]. rewrite E, P1, zq_mult.
    replace (zq 10) with (qpow10 1) by (apply qc_eq_iff; reflexivity). rewrite (Qcmult_comm (qpow10 1)), <- Qcmult_assoc, <- qpow10_add. f_equal. f_equal. lia.
  - exists n0, e0. split; [lia|]. split; reflexivity.
Qed.
Lemma qpow10_exp_low u : 0 < u -> Q2Qc (1 # 10000) <= u -> (-4 <= flog10 u)%Z.
Proof.
  intros Hu H. destruct (flog10_spec u Hu) as [_ F]. assert (-4 < flog10 u + 1)%Z; [|lia]. apply qpow10_le_inv.
  eapply Qcle_lt_trans; [|exact F]. eapply Qcle_trans; [|exact H]. apply Qle_bool_iff. reflexivity.
Qed.
Lemma qpow10_exp_high u P : 0 < u -> u < zq (p10 P) -> (flog10 u < Z.of_nat P)%Z.
Proof.
  intros Hu H. destruct (flog10_spec u Hu) as [F _]. apply qpow10_le_inv. eapply Qcle_lt_trans; [exact F|]. now rewrite qpow10_nat.
Qed.
Lemma round_sig_pos P v : (1 <= P)%nat -> 0 < v -> 0 < round_sig P v.
Proof. intros HP Hv. destruct (round_sig_bounds P v HP Hv) as [A _]. eapply Qclt_le_trans; [apply qpow10_pos|exact A]. Qed.

Lemma fmt_g_pos_plain P v u : (1 <= P)%nat -> 0 < v -> round_sig P v = u -> Q2Qc (1 # 10000) <= u -> u < zq (p10 P) ->
  is_lit (fmt_g_pos P v) u.
Proof.
  intros HP Hv R L U. pose proof (round_sig_pos P v HP Hv) as Pu. rewrite R in Pu.
  destruct (rounded P v HP Hv) as (n & e & N & RE & X). unfold fmt_g_pos. cbv zeta in X |- *. rewrite X. rewrite R in RE.
  assert (E : flog10 u = e) by (rewrite RE; now apply scaled_exponent).
  pose proof (qpow10_exp_low u Pu L) as E1. pose proof (qpow10_exp_high u P Pu U) as E2. rewrite E in E1, E2.
  destruct (Z.leb_spec (-4) e); [|lia]. destruct (Z.ltb_spec e (Z.of_nat P)); [|lia]. cbn [andb].
  pose proof (p10_pos (P - 1)). assert (D : u = dec n (Z.to_nat (Z.of_nat P - 1 - e))).
  { rewrite RE, dec_qpow. f_equal. f_equal. lia. }
  rewrite D. apply fixed_lit. lia.
Qed.
Lemma fmt_r_pos_plain P v u : (1 <= P)%nat -> 0 < v -> round_sig P v = u -> Q2Qc (1 # 10000) <= u -> u < zq (10 ^ 16) ->
  is_lit (fmt_r_pos P v) u.
Proof.
  intros HP Hv R L U. pose proof (round_sig_pos P v HP Hv) as Pu. rewrite R in Pu.
  destruct (rounded P v HP Hv) as (n & e & N & RE & X). unfold fmt_r_pos. cbv zeta in X |- *. rewrite X. rewrite R in RE.
  assert (E : flog10 u = e) by (rewrite RE; now apply scaled_exponent).
  pose proof (qpow10_exp_low u Pu L) as E1. pose proof (qpow10_exp_high u 16 Pu U) as E2. rewrite E in E1, E2. change (Z.of_nat 16) with 16%Z in E2.
  destruct (Z.leb_spec (-4) e); [|lia]. destruct (Z.ltb_spec e 16); [|lia]. cbn [andb]. pose proof (p10_pos (P - 1)).
  destruct (Z.ltb_spec e (Z.of_nat P)) as [B|B].
  - assert (D : u = dec n (Z.to_nat (Z.of_nat P - 1 - e))).
    { rewrite RE, dec_qpow. f_equal. f_equal. lia. }
    rewrite D. apply point_lit. lia.
  - assert (D : u = dec (n * p10 (Z.to_nat (e - (Z.of_nat P - 1)))) 0).
    { rewrite RE. unfold dec. rewrite p10_0, zq_1, zq_mult, <- qpow10_nat. replace (Z.of_nat (Z.to_nat (e - (Z.of_nat P - 1)))) with (e - (Z.of_nat P - 1))%Z by lia.
      field. discriminate. }
    rewrite D. apply point_lit. pose proof (p10_pos (Z.to_nat (e - (Z.of_nat P - 1)))). nia.
Qed.

(** ** The numbers of the specification *)
Lemma qabs_pos v : 0 <= v -> qabs v = v.
Proof. intros H. unfold qabs. destruct (Qclt_le_dec v 0) as [L|L]; [exfalso; apply Qclt_not_le in L; contradiction|reflexivity]. Qed.
Lemma qc_sign v : v = 0 \/ 0 < v \/ 0 < - v.
Proof. destruct (qceq_spec v 0); [now left|right]. destruct (Qclt_le_dec v 0); [right; qclra|left]. apply Qcle_lt_or_eq in q as [q|q]; [exact q|congruence]. Qed.

Lemma round_sig_signed_pos P v : 0 < v -> round_sig_signed P v = round_sig P v.
Proof. intros H. unfold round_sig_signed. destruct (qceq_spec v 0); [qclra|]. destruct (qclt_spec v 0); [qclra|reflexivity]. Qed.

Lemma rnd53_pos v : 0 < v -> 0 < rnd53 v.
Proof.
  intros Hv. destruct (rnd53_pos_close v Hv) as [W _]. eapply Qclt_le_trans; [|exact W]. rewrite <- (Qcmult_0_l (1 - eps53)).
  apply Qcmult_lt_compat_r; [reflexivity|exact Hv].
Qed.

(** str() of a number without exponent. *)
Lemma repr_plain_pos v : double v -> 0 < v -> Q2Qc (1 # 10000) <= v -> v < zq (10 ^ 16) ->
  exists u, rnd53 u = v /\ 0 < u /\ is_lit (py_repr v) u.
Proof.
  intros D Hv L U. unfold double in D. unfold py_repr. cbv zeta. rewrite D.
  destruct (digits_needed_reads 16 1 v ltac:(lia) D) as [R HP]. set (P := digits_needed 16 1 v) in *.
  rewrite round_sig_signed_pos in R by auto. exists (round_sig P v). split; [exact R|]. split; [now apply round_sig_pos|].
  unfold fmt_r. destruct (qceq_spec v 0); [qclra|]. destruct (qclt_spec v 0); [qclra|].
  destruct (round_sig_bounds P v HP Hv) as [B1 B2].
  pose proof (qpow10_exp_low v Hv L) as E1. pose proof (qpow10_exp_high v 16 Hv U) as E2. change (Z.of_nat 16) with 16%Z in E2.
  assert (Mono : forall a b, (a <= b)%Z -> qpow10 a <= qpow10 b).
  { intros a b H. destruct (Z.eq_dec a b) as [->|N]; [apply Qcle_refl|]. apply Qcnot_lt_le. intros C. apply qpow10_le_inv in C. lia. }
  apply fmt_r_pos_plain; auto.
  - eapply Qcle_trans; [|exact B1]. eapply Qcle_trans; [|apply (Mono (-4)%Z); exact E1]. apply Qle_bool_iff. reflexivity.
  - assert (B3 : round_sig P v <= zq (10 ^ 16)) by (eapply Qcle_trans; [exact B2|]; apply (Mono _ 16%Z); lia).
    apply Qcle_lt_or_eq in B3 as [B3|B3]; [exact B3|]. exfalso. rewrite B3 in R.
    assert (rnd53 (zq (10 ^ 16)) = zq (10 ^ 16)) by (apply qc_eq_iff; reflexivity). rewrite H in R. rewrite <- R in U.
    now apply Qclt_not_eq in U.
Qed.
(** [t] is written for the number [v] and read back as [v]. *)
Definition written (t : text) (v : Qc) : Prop := exists u, reads_as t u /\ rnd53 u = v.

Lemma py_repr_neg v : 0 < v -> py_repr (- v) = "-"%char :: py_repr v.
Proof.
  intros H. unfold py_repr. cbv zeta. rewrite rnd53_opp. pose proof (rnd53_pos v H) as W. set (w := rnd53 v) in *.
  assert (E : forall fuel P, (1 <= P)%nat -> digits_needed fuel P (- w) = digits_needed fuel P w).
  { induction fuel as [|fuel IH]; intros P HP; cbn [digits_needed]; [reflexivity|]. rewrite !py_float_fmt_r by auto. rewrite round_sig_signed_opp, rnd53_opp.
    rewrite IH by lia.
    destruct (qceq_spec (- rnd53 (round_sig_signed P w)) (- w)) as [A|A], (qceq_spec (rnd53 (round_sig_signed P w)) w) as [B|B]; auto.
    - exfalso. apply B. rewrite <- (Qcopp_involutive (rnd53 _)), A. apply Qcopp_involutive.
    - exfalso. apply A. now rewrite B. }
  rewrite E by lia. set (P := digits_needed 16 1 w). unfold fmt_r. destruct (qceq_spec (- w) 0); [qclra|]. destruct (qceq_spec w 0); [qclra|].
  destruct (qclt_spec (- w) 0); [|qclra]. destruct (qclt_spec w 0); [qclra|]. now rewrite Qcopp_involutive.
Qed.
Lemma zero_lit : is_lit (T "0") 0.
Proof. exists (mkLit (T "0") None). split; [reflexivity|]. split; [|split]; [|apply qc_eq_iff; reflexivity|congruence].
  split; [now apply digit_string_iff|]. split; [exact I|]. now left. Qed.
Lemma qc_pos_neq u : 0 < u -> u <> 0.
Proof. intros H ->. discriminate H. Qed.
Lemma qabs_neg v : 0 < - v -> qabs v = - v.
Proof. intros H. rewrite <- qabs_opp. apply qabs_pos. qclra. Qed.

Lemma repr_plain v : plain_number v -> written (py_repr v) v.
Proof.
  intros [D H]. destruct (qc_sign v) as [->|[S|S]].
  - exists 0. split; [|apply qc_eq_iff; reflexivity]. apply is_lit_reads. exists (mkLit (T "0") (Some (T "0"))).
    split; [reflexivity|]. split; [|split; [apply qc_eq_iff; reflexivity|congruence]]. split; [now apply digit_string_iff|].
    split; [now apply digit_string_iff|]. now left.
  - destruct H as [->|[L U]]; [qclra|]. rewrite qabs_pos in L, U by qclra. destruct (repr_plain_pos v D S L U) as (u & A & B & C).
    exists u. split; [now apply is_lit_reads|exact A].
  - destruct H as [->|[L U]]; [qclra|]. rewrite qabs_neg in L, U by auto.
    assert (D' : double (- v)) by (unfold double in *; now rewrite rnd53_opp, D).
    destruct (repr_plain_pos (- v) D' S L U) as (u & A & B & C). exists (- u). split; [|rewrite rnd53_opp, A; apply Qcopp_involutive].
    rewrite <- (Qcopp_involutive v) at 1. rewrite py_repr_neg by auto. apply is_lit_reads_neg; [now apply qc_pos_neq|exact C].
Qed.

(** '%.Pg' of a short number. *)
Lemma grid_digitsP P m k : (Z.abs m < 10 ^ Z.of_nat P)%Z -> digitsP P (grid m k).
Proof. intros H. exists m, (- Z.of_nat k)%Z. split; [exact H|]. rewrite grid_dec. apply dec_qpow. Qed.
Lemma fmt_g_short P v : (1 <= P <= 15)%nat -> short_number P v -> written (fmt_g P v) v.
Proof.
  intros HP (m & k & -> & Hm & H). set (g := grid m k) in *. assert (D : digitsP P g) by now apply grid_digitsP.
  pose proof (round_digits_signed P g HP D) as R. exists g. split; [|reflexivity].
  destruct (qc_sign g) as [E|[S|S]].
  - rewrite E. replace (fmt_g P (rnd53 0)) with (T "0") by reflexivity. apply is_lit_reads, zero_lit.
  - destruct H as [->|[L U]].
    { exfalso. unfold g in S. rewrite grid_dec in S. unfold dec in S. change (zq 0) with 0 in S. unfold Qcdiv in S. rewrite Qcmult_0_l in S. qclra. }
    rewrite qabs_pos in L, U by qclra. pose proof (rnd53_pos g S) as W.
    apply is_lit_reads. unfold fmt_g. destruct (qceq_spec (rnd53 g) 0); [qclra|]. destruct (qclt_spec (rnd53 g) 0); [qclra|].
    rewrite round_sig_signed_pos in R by auto. apply fmt_g_pos_plain; auto; lia.
  - destruct H as [->|[L U]].
    { exfalso. unfold g in S. rewrite grid_dec in S. unfold dec in S. change (zq 0) with 0 in S. unfold Qcdiv in S. rewrite Qcmult_0_l in S. qclra. }
    rewrite qabs_neg in L, U by auto. pose proof (rnd53_pos (- g) S) as W. rewrite rnd53_opp in W.
    unfold fmt_g. destruct (qceq_spec (rnd53 g) 0); [qclra|]. destruct (qclt_spec (rnd53 g) 0); [|qclra].
    assert (R' : round_sig P (- rnd53 g) = - g).
    { rewrite <- round_sig_signed_pos by auto. rewrite round_sig_signed_opp. now rewrite R. }
    rewrite <- (Qcopp_involutive g) at 2. change (T "-" ++ fmt_g_pos P (- rnd53 g)) with ("-"%char :: fmt_g_pos P (- rnd53 g)).
    apply is_lit_reads_neg; [now apply qc_pos_neq|]. apply fmt_g_pos_plain; auto; lia.
Qed.

Lemma nat_lit n : (0 <= n)%Z -> is_lit (show_nat n) (zq n).
Proof.
  intros H. pose proof (fixed_lit n 0 H) as F. unfold show_fixed in F. rewrite p10_0, Z.mod_1_r, Z.div_1_r in F.
  change (rstrip_p (ceq "0") (dig 0 0)) with ([] : text) in F. cbv iota in F. rewrite app_nil_r in F.
  replace (dec n 0) with (zq n) in F; [exact F|]. unfold dec. rewrite p10_0, zq_1. field. discriminate.
Qed.
Lemma rnd53_int n : (0 <= n < 10 ^ 15)%Z -> rnd53 (zq n) = zq n.
Proof.
  intros H. pose proof (small_double n 0 ltac:(lia)) as S. change (pow2 (- 0)) with 1 in S. now rewrite Qcmult_1_r in S.
Qed.
Lemma count_written n : small_count n -> written (show_nat n) (zq n).
Proof. intros H. exists (zq n). split; [|now apply rnd53_int]. apply is_lit_reads, nat_lit. apply H. Qed.
Lemma expo_written on : written (expo on) (if on then 1 else 0) /\ flag (if on then 1 else 0) on.
Proof.
  split.
  - exists (if on then 1 else 0). split; [|destruct on; apply qc_eq_iff; reflexivity]. apply is_lit_reads.
    destruct on; [|apply zero_lit]. exact (nat_lit 1 ltac:(lia)).
  - split; destruct on; try discriminate; auto.
Qed.
Lemma counts_int n : counts (zq n) n.
Proof. apply counts_trunc, py_trunc_int. Qed.

(** ** Written primitives are blocks of the macro language *)
Definition nonl (t : text) : text := filter (fun c => negb (ceq c nl)) t.
Definition commas (ts : list text) : text := List.concat (map (fun t => T "," ++ t) ts).
Definition gc (c : ascii) : bool := gchar c || ceq c ","%char.

Lemma nonl_app a b : nonl (a ++ b) = nonl a ++ nonl b.
Proof. unfold nonl. induction a as [|c a IH]; [reflexivity|]. cbn [app filter]. destruct (negb (ceq c nl)); cbn [app]; now rewrite IH. Qed.
Lemma nonl_gc t : forallb gc t = true -> nonl t = t.
Proof.
  induction t as [|c t IH]; [reflexivity|]. cbn [forallb]. intros H. apply andb_prop in H as [A B]. cbn [nonl filter].
  destruct (ceq_spec c nl) as [->|N]; [discriminate A|]. cbn [negb]. f_equal. now apply IH.
Qed.
Lemma join_commas a l : join (T ",") (a :: l) = a ++ commas l.
Proof.
  revert a. induction l as [|b l IH]; intros a; [cbn; now rewrite app_nil_r|]. change (join (T ",") (a :: b :: l)) with (a ++ T "," ++ join (T ",") (b :: l)).
  rewrite IH. unfold commas. cbn [map List.concat]. now rewrite <- app_assoc.
Qed.
Lemma commas_app a b : commas (a ++ b) = commas a ++ commas b.
Proof. unfold commas. now rewrite map_app, concat_app. Qed.
Definition coord_texts (P : nat) (l : list point) : list text := flat_map (fun p => [fmt_g P (fst p); fmt_g P (snd p)]) l.
Lemma commas_points P l : commas (map (pt_text P) l) = commas (coord_texts P l).
Proof.
  induction l as [|p l IH]; [reflexivity|]. change (coord_texts P (p :: l)) with ([fmt_g P (fst p); fmt_g P (snd p)] ++ coord_texts P l).
  rewrite commas_app, <- IH. unfold commas, pt_text. cbn [map List.concat]. now rewrite <- !app_assoc.
Qed.
Lemma forallb_impl (p q : ascii -> bool) s : (forall c, p c = true -> q c = true) -> forallb p s = true -> forallb q s = true.
Proof. intros H F. rewrite forallb_forall in *. auto. Qed.
Lemma gchar_gc t : forallb gchar t = true -> forallb gc t = true.
Proof. apply forallb_impl. intros c H. unfold gc. now rewrite H. Qed.
Lemma digits_gc t : all_digits t = true -> forallb gc t = true.
Proof. apply forallb_impl. intros c H. unfold gc, gchar. now rewrite H. Qed.
Lemma repr_gc v : forallb gc (py_repr v) = true.
Proof. apply gchar_gc, py_repr_gchars. Qed.
Lemma fmt_gc P v : (1 <= P)%nat -> forallb gc (fmt_g P v) = true.
Proof. intros H. apply gchar_gc. now apply fmt_g_gchars. Qed.
Lemma pt_gc P p : (1 <= P)%nat -> forallb gc (pt_text P p) = true.
Proof. intros H. unfold pt_text. rewrite !forallb_app, !fmt_gc by auto. reflexivity. Qed.
Lemma expo_gc on : forallb gc (expo on) = true.
Proof. now destruct on. Qed.
Lemma nat_gc n : forallb gc (show_nat n) = true.
Proof. apply digits_gc, show_nat_digits. Qed.
Lemma int_gc n : forallb gc (show_int n) = true.
Proof. unfold show_int. destruct (n <? 0)%Z; [|apply nat_gc]. cbn [app forallb]. now rewrite nat_gc. Qed.
Lemma commas_gc ts : Forall (fun t => forallb gc t = true) ts -> forallb gc (commas ts) = true.
Proof. induction 1; [reflexivity|]. unfold commas in *. cbn [map List.concat]. rewrite !forallb_app, H, IHForall. reflexivity. Qed.
Lemma show_int_pos n : (0 <= n)%Z -> show_int n = show_nat n.
Proof. intros H. unfold show_int. destruct (Z.ltb_spec n 0); [lia|reflexivity]. Qed.

Lemma points_written P l : (1 <= P <= 15)%nat -> Forall (short_point P) l -> Forall2 written (coord_texts P l) (coords l).
Proof.
  intros HP. induction 1 as [|[x y] l [A B] _ IH]; [constructor|]. cbn [coord_texts flat_map coords app fst snd] in *.
  constructor; [now apply fmt_g_short|]. constructor; [now apply fmt_g_short|exact IH].
Qed.
Lemma nonl_join ls : Forall (fun t => forallb gc t = true) ls -> nonl (join (T "," ++ [nl]) ls) = join (T ",") ls.
Proof.
  induction 1 as [|t [|u ls] A B IH]; [reflexivity|cbn; now apply nonl_gc|].
  change (join (T "," ++ [nl]) (t :: u :: ls)) with (t ++ (T "," ++ [nl]) ++ join (T "," ++ [nl]) (u :: ls)).
  rewrite !nonl_app, IH, (nonl_gc t) by auto. reflexivity.
Qed.

Lemma means_zero_code c vs p : means c vs p -> (1 <= c)%Z.
Proof. destruct 1; try lia. Qed.

Definition is_block (p : amprim) (c : Z) (ts : list text) (vs : list Qc) : Prop :=
  nonl (prim_to_gerber p) = show_nat c ++ commas ts ++ T "*" /\ ts <> [] /\ Forall2 written ts vs /\ means c vs p.

Lemma fields_block p c t0 ts vs : prim_to_gerber p = fields (t0 :: ts) -> t0 = show_nat c -> forall ts', nonl (commas ts) = commas ts' ->
  ts' <> [] -> Forall2 written ts' vs -> means c vs p -> is_block p c ts' vs.
Proof.
  intros E -> ts' N NE F M. split; [|auto]. rewrite E. unfold fields. rewrite join_commas, !nonl_app, N, (nonl_gc (show_nat c)) by apply nat_gc.
  now rewrite <- app_assoc.
Qed.
Lemma commas_one P x y : commas [fmt_g P x; fmt_g P y] = commas [pt_text P (x, y)].
Proof. symmetry. apply (commas_points P [(x, y)]). Qed.
Lemma pt_split P p ts ts' : commas (pt_text P p :: ts ++ ts') = commas (fmt_g P (fst p) :: fmt_g P (snd p) :: ts ++ ts').
Proof. unfold commas, pt_text. cbn [map List.concat]. now rewrite <- !app_assoc. Qed.

Ltac gcs := repeat (apply Forall_cons || apply Forall_nil); first [apply repr_gc|apply expo_gc|apply nat_gc|apply int_gc|apply pt_gc; lia|apply fmt_gc; lia].
Lemma prim_block p : prim_writable p -> exists c ts vs, is_block p c ts vs.
Proof.
  assert (S4 : (1 <= 4 <= 15)%nat) by lia. assert (S6 : (1 <= 6 <= 15)%nat) by lia.
  destruct p as [cm|on d [x y]|code on w [x1 y1] [x2 y2] r|on s l r|on n [x y] d r|[x y] d th g n ct cl r|[x y] o i g r|on w h [x y] r|on w h [x y] r|t];
    cbn [prim_writable]; try contradiction.
  - intros (A & B & C). cbn in B, C. destruct (expo_written on) as [E F]. do 3 eexists.
    eapply fields_block; [reflexivity|exact (eq_refl (show_nat 1))|apply nonl_gc, commas_gc; gcs|discriminate| |constructor; exact F].
    repeat constructor; auto using repr_plain.
  - intros (K & A & [B C] & [D G] & R). cbn in B, C, D, G. destruct (expo_written on) as [E F]. do 3 eexists.
    eapply fields_block; [reflexivity|apply show_int_pos; destruct K; lia|apply nonl_gc, commas_gc; gcs|discriminate| |apply M_vector; [exact K|exact F]].
    repeat constructor; auto using repr_plain.
  - intros (NE & K & S & L & La & R). destruct (expo_written on) as [E F].
    exists 4%Z, (expo on :: show_nat (Z.of_nat (List.length l)) :: coord_texts 6 (s :: l) ++ [py_repr r]).
    exists ((if on then 1 else 0) :: zq (Z.of_nat (List.length l)) :: coords (s :: l) ++ [r]).
    eapply fields_block; [reflexivity|exact (eq_refl (show_nat 4))| |discriminate| |apply M_outline; auto using counts_int].
    + change (expo on :: show_nat (Z.of_nat (List.length l)) :: coord_texts 6 (s :: l) ++ [py_repr r])
        with ([expo on; show_nat (Z.of_nat (List.length l))] ++ coord_texts 6 (s :: l) ++ [py_repr r]).
      rewrite !commas_app, <- commas_points. destruct l as [|q l]; [contradiction|].
      change (commas [expo on; show_nat (Z.of_nat (List.length (q :: l))); pt_text 6 s; join (T "," ++ [nl]) (map (pt_text 6) (q :: l)); py_repr r])
        with (commas ([expo on; show_nat (Z.of_nat (List.length (q :: l))); pt_text 6 s] ++ [join (T "," ++ [nl]) (map (pt_text 6) (q :: l))] ++ [py_repr r])).
      rewrite !commas_app, !nonl_app. rewrite (nonl_gc (commas [expo on; _; _])) by (apply commas_gc; gcs).
      rewrite (nonl_gc (commas [py_repr r])) by (apply commas_gc; gcs).
      assert (J : nonl (commas [join (T "," ++ [nl]) (map (pt_text 6) (q :: l))]) = commas (map (pt_text 6) (q :: l))).
      { unfold commas at 1. cbn [map List.concat]. rewrite app_nil_r, nonl_app. change (pt_text 6 q :: map (pt_text 6) l) with (map (pt_text 6) (q :: l)).
        rewrite nonl_join.
        - cbn [map]. rewrite join_commas. unfold commas. cbn [map List.concat]. now rewrite <- app_assoc.
        - apply Forall_map, Forall_forall. intros z _. apply pt_gc. lia. }
      rewrite J. unfold commas. cbn [map List.concat]. rewrite <- ?app_assoc. cbn [app]. now rewrite <- ?app_assoc.
    + constructor; [exact E|]. constructor; [now apply count_written|]. apply Forall2_app.
      * apply points_written; [exact S6|]. now constructor.
      * repeat constructor. now apply repr_plain.
  - intros (K & [A B] & C & R). cbn in A, B. destruct (expo_written on) as [E F].
    exists 5%Z, [expo on; show_nat n; fmt_g 4 x; fmt_g 4 y; fmt_g 4 d; py_repr r]. eexists.
    eapply fields_block; [reflexivity|exact (eq_refl (show_nat 5))| |discriminate| |apply M_polygon; [exact F|apply counts_int|exact K]].
    + rewrite nonl_gc by (apply commas_gc; gcs). rewrite show_int_pos by lia.
      unfold commas, pt_text. cbn [map List.concat fst snd]. now rewrite <- ?app_assoc.
    + repeat constructor; auto using repr_plain, fmt_g_short. apply count_written. unfold small_count. lia.
  - intros (K & [A B] & R). cbn in A, B.
    exists 6%Z, [fmt_g 4 x; fmt_g 4 y; py_repr d; py_repr th; py_repr g; show_nat n; py_repr ct; py_repr cl; py_repr r]. eexists.
    eapply fields_block; [reflexivity|exact (eq_refl (show_nat 6))| |discriminate| |apply M_moire; apply counts_int].
    + rewrite nonl_gc by (apply commas_gc; gcs). rewrite show_int_pos by apply K.
      unfold commas, pt_text. cbn [map List.concat fst snd]. now rewrite <- ?app_assoc.
    + repeat match goal with H : Forall _ (_ :: _) |- _ => inversion H; clear H; subst end. repeat constructor; auto using repr_plain, fmt_g_short, count_written.
  - intros ([A B] & R). cbn in A, B.
    exists 7%Z, [fmt_g 4 x; fmt_g 4 y; py_repr o; py_repr i; py_repr g; py_repr r]. eexists.
    eapply fields_block; [reflexivity|exact (eq_refl (show_nat 7))| |discriminate| |apply M_thermal].
    + rewrite nonl_gc by (apply commas_gc; gcs).
      unfold commas, pt_text. cbn [map List.concat fst snd]. now rewrite <- ?app_assoc.
    + repeat match goal with H : Forall _ (_ :: _) |- _ => inversion H; clear H; subst end. repeat constructor; auto using repr_plain, fmt_g_short, count_written.
  - intros ([A B] & R). cbn in A, B. destruct (expo_written on) as [E F].
    exists 21%Z, [expo on; py_repr w; py_repr h; fmt_g 4 x; fmt_g 4 y; py_repr r]. eexists.
    eapply fields_block; [reflexivity|exact (eq_refl (show_nat 21))| |discriminate| |apply M_center; exact F].
    + rewrite nonl_gc by (apply commas_gc; gcs).
      unfold commas, pt_text. cbn [map List.concat fst snd]. now rewrite <- ?app_assoc.
    + repeat match goal with H : Forall _ (_ :: _) |- _ => inversion H; clear H; subst end. repeat constructor; auto using repr_plain, fmt_g_short, count_written.
  - intros ([A B] & R). cbn in A, B. destruct (expo_written on) as [E F].
    exists 22%Z, [expo on; py_repr w; py_repr h; fmt_g 4 x; fmt_g 4 y; py_repr r]. eexists.
    eapply fields_block; [reflexivity|exact (eq_refl (show_nat 22))| |discriminate| |apply M_lower; exact F].
    + rewrite nonl_gc by (apply commas_gc; gcs).
      unfold commas, pt_text. cbn [map List.concat fst snd]. now rewrite <- ?app_assoc.
    + repeat match goal with H : Forall _ (_ :: _) |- _ => inversion H; clear H; subst end. repeat constructor; auto using repr_plain, fmt_g_short, count_written.
Qed.

Lemma block_of p : prim_writable p -> exists b y, block_ok b /\ nonl (prim_to_gerber p) = block_text b ++ T "*" /\
  (forall env r, macro_value env (b :: r) = option_map (cons y) (macro_value env r)) /\ from_gerber (yield_text y) = Ok p.
Proof.
  intros W. destruct (prim_block p W) as (c & ts & vs & N & NE & F & M).
  assert (X : exists ms us, map mod_text ms = ts /\ Forall mod_ok ms /\ (forall env, all_some (map (mod_value env) ms) = Some us) /\ map rnd53 us = vs).
  { clear N NE M. induction F as [|t v ts vs (u & (m & E & O & V) & R) _ IH]; [exists [], []; repeat split; constructor|].
    destruct IH as (ms & us & A & B & C & D). exists (m :: ms), (u :: us). cbn [map]. rewrite A, D, E, R. repeat split; auto.
    intros env. cbn [map all_some]. now rewrite V, C. }
  destruct X as (ms & us & A & B & C & D). exists (BPrim c ms), (c, map MNum us). split; [|split; [|split]].
  - split; [now apply means_zero_code in M|]. split; [|exact B]. intros ->. apply NE. now rewrite <- A.
  - rewrite N. cbn [block_text]. rewrite <- A. unfold commas. rewrite map_map. now rewrite <- app_assoc.
  - intros env r. cbn [macro_value]. now rewrite C.
  - apply means_reads. now rewrite D.
Qed.
Lemma blocks_of ps : Forall prim_writable ps -> exists bs ys, Forall block_ok bs /\
  nonl (List.concat (map prim_to_gerber ps)) = macro_text bs /\ (forall env, macro_value env bs = Some ys) /\
  mapM (fun y => from_gerber (yield_text y)) ys = Ok ps.
Proof.
  induction 1 as [|p ps W _ IH]; [exists [], []; repeat split; constructor|].
  destruct (block_of p W) as (b & y & A & B & C & D). destruct IH as (bs & ys & A' & B' & C' & D').
  exists (b :: bs), (y :: ys). split; [now constructor|]. split; [|split].
  - cbn [map List.concat]. rewrite nonl_app, B, B'. unfold macro_text. cbn [map List.concat]. reflexivity.
  - intros env. rewrite C, C'. reflexivity.
  - cbn [mapM]. rewrite D. cbn [bind]. now rewrite D'.
Qed.

Lemma split_on_last c s : split_on c (s ++ [c]) = split_on c s ++ [[]].
Proof.
  induction s as [|x s IH]; cbn [app split_on].
  - rewrite ceq_refl. reflexivity.
  - assert (NE : split_on c s <> []).
    { destruct s; cbn; [discriminate|]. destruct (ceq a c), (split_on c s); discriminate. }
    rewrite IH. destruct (split_on c s); [contradiction|]. destruct (ceq x c); reflexivity.
Qed.
Lemma mapM_app {A B} (f : A -> res B) a b : mapM f (a ++ b) = do x <- mapM f a; do y <- mapM f b; Ok (x ++ y).
Proof.
  induction a as [|h a IH]; cbn [app mapM bind]; [destruct (mapM f b); reflexivity|]. destruct (f h); [|reflexivity]. cbn [bind].
  rewrite IH. destruct (mapM f a); [|reflexivity]. cbn [bind]. destruct (mapM f b); reflexivity.
Qed.
Lemma read_macro_star s : read_macro (s ++ T "*") = read_macro s.
Proof.
  unfold read_macro. change (T "*") with ["*"%char]. rewrite split_on_last, mapM_app. destruct (mapM read_block (split_on "*"%char s)) as [l|]; [|reflexivity].
  cbn [bind]. change (mapM read_block [[]]) with (Ok [[] : list instr]). cbn [bind]. rewrite concat_app. cbn [List.concat]. now rewrite !app_nil_r.
Qed.

(** ** The text of the statement is read in one piece *)
Definition amchar (c : ascii) : bool := gc c || ceq c "*"%char || ceq c nl.
Lemma gc_amchar t : forallb gc t = true -> forallb amchar t = true.
Proof. apply forallb_impl. intros c H. unfold amchar. now rewrite H. Qed.
Lemma commas_amchar ts : Forall (fun t => forallb amchar t = true) ts -> forallb amchar (commas ts) = true.
Proof. induction 1; [reflexivity|]. unfold commas in *. cbn [map List.concat]. rewrite !forallb_app, H, IHForall. reflexivity. Qed.
Lemma fields_amchar ts : Forall (fun t => forallb amchar t = true) ts -> forallb amchar (fields ts) = true.
Proof.
  intros H. unfold fields. rewrite forallb_app. replace (forallb amchar (T "*")) with true by reflexivity. rewrite Bool.andb_true_r.
  destruct H as [|a l A B]; [reflexivity|]. rewrite join_commas, forallb_app, A. now apply commas_amchar.
Qed.
Lemma join_amchar ls : Forall (fun t => forallb amchar t = true) ls -> forallb amchar (join (T "," ++ [nl]) ls) = true.
Proof.
  induction 1 as [|t [|u ls] A B IH]; [reflexivity|exact A|].
  change (join (T "," ++ [nl]) (t :: u :: ls)) with (t ++ (T "," ++ [nl]) ++ join (T "," ++ [nl]) (u :: ls)).
  now rewrite !forallb_app, IH, A.
Qed.
Lemma prim_amchar p : prim_writable p -> forallb amchar (prim_to_gerber p) = true.
Proof.
  destruct p; cbn [prim_writable]; try contradiction; intros _; apply fields_amchar; repeat (apply Forall_cons || apply Forall_nil);
    try (apply gc_amchar; first [reflexivity|apply repr_gc|apply expo_gc|apply nat_gc|apply int_gc|apply pt_gc; lia|apply fmt_gc; lia]).
  apply join_amchar, Forall_map, Forall_forall. intros z _. apply gc_amchar, pt_gc. lia.
Qed.
Lemma prims_amchar ps : Forall prim_writable ps -> forallb amchar (List.concat (map prim_to_gerber ps)) = true.
Proof. induction 1; [reflexivity|]. cbn [map List.concat]. rewrite forallb_app, IHForall, prim_amchar by auto. reflexivity. Qed.
Lemma prims_last ps : ps <> [] -> Forall prim_writable ps -> exists b, List.concat (map prim_to_gerber ps) = b ++ T "*".
Proof.
  intros N H. induction H as [|p ps W R IH]; [contradiction|]. cbn [map List.concat]. destruct ps as [|q ps].
  - cbn [map List.concat]. rewrite app_nil_r. destruct p; cbn [prim_writable] in W; try contradiction; cbn [prim_to_gerber]; unfold fields; eauto.
  - destruct IH as [b ->]; [discriminate|]. exists (prim_to_gerber p ++ b). now rewrite app_assoc.
Qed.

(** Characters inside a command: no percent sign, and no white space but line feeds. *)
Definition solid (c : ascii) : bool := negb (is_space c) && negb (ceq c "%"%char).
Definition body_char (c : ascii) : bool := solid c || ceq c nl.
Lemma amchar_body c : amchar c = true -> body_char c = true.
Proof. destruct c as [[] [] [] [] [] [] [] []]; cbv; intros H; (reflexivity || discriminate H). Qed.
Lemma strip_solid t : forallb (fun c => negb (is_space c)) t = true -> strip t = t.
Proof.
  intros H. unfold strip, strip_p. rewrite forallb_forall in H.
  assert (A : forall x, In x t -> is_space x = false) by (intros x Hx; now apply Bool.negb_true_iff, H).
  rewrite lstrip_p_keep; [apply rstrip_p_keep|]; intros; subst; apply A; [apply in_or_app; right|]; now left.
Qed.

Lemma solid_nospace t : forallb solid t = true -> forallb (fun c => negb (is_space c)) t = true.
Proof. apply forallb_impl. intros c H. unfold solid in H. now apply andb_prop in H as [-> _]. Qed.
Lemma solid_nl : solid nl = false. Proof. reflexivity. Qed.
Lemma solid_no_percent c : solid c = true -> ceq c "%"%char = false.
Proof. unfold solid. intros H. apply andb_prop in H as [_ H]. now apply Bool.negb_true_iff. Qed.
Lemma solid_no_nl c : solid c = true -> is_nl c = false.
Proof. destruct c as [[] [] [] [] [] [] [] []]; cbv; intros H; (reflexivity || discriminate H). Qed.
Lemma ends_solid x c : x <> [] -> forallb solid x = true -> ends_with_percent (c :: x) = false.
Proof.
  intros N H. unfold ends_with_percent. destruct (exists_last N) as (y & z & ->). rewrite app_comm_cons, rev_app_distr. cbn [rev app].
  rewrite forallb_app in H. apply andb_prop in H as [_ H]. cbn in H. rewrite Bool.andb_true_r in H. now apply solid_no_percent.
Qed.
Lemma solid_char_in x : forallb solid x = true -> char_in "%"%char x = false.
Proof.
  intros H. destruct (char_in "%"%char x) eqn:E; [|reflexivity]. exfalso. unfold char_in in E. apply existsb_exists in E as (y & I1 & E).
  rewrite forallb_forall in H. specialize (H y I1). apply solid_no_percent in H. apply ceq_true in E. subst. discriminate H.
Qed.
Lemma ends_percent t : ends_with_percent (t ++ T "%") = true.
Proof. unfold ends_with_percent. rewrite rev_app_distr. reflexivity. Qed.

Lemma gather inc st rest : forall b old cur x, forallb body_char b = true -> old ++ cur = "%"%char :: x -> x <> [] ->
  forallb solid x = true -> (old <> [] \/ cur <> []) ->
  parse_cmds inc st old (fst (split_loop cur true (b ++ T "*%" ++ rest))) =
  (do o <- parse_line (Datatypes.S (List.length ("%"%char :: x ++ nonl b ++ T "*%"))) inc st ("%"%char :: x ++ nonl b ++ T "*%");
   let '(l, st', old') := o in
   do o2 <- parse_cmds inc st' old' (fst (split_loop [] false rest)); let '(l', st'') := o2 in Ok (l ++ l', st'')).
Proof.
  assert (NS : forall old cur x, old ++ cur = "%"%char :: x -> forallb solid x = true -> strip cur = cur).
  { intros old cur x E Hx. apply strip_solid. assert (A : forallb (fun c => negb (is_space c)) (old ++ cur) = true).
    { rewrite E. cbn [forallb]. now apply solid_nospace. } rewrite forallb_app in A. now apply andb_prop in A as [_ A]. }
  induction b as [|c b IH]; intros old cur x Hb E NE Hx NN.
  - cbn [app nonl filter]. change (T "*%" ++ rest) with ("*"%char :: "%"%char :: rest). cbn [split_loop].
    change (ceq "*" "%") with false. change (is_nl "*") with false. change (ceq "*" "*") with true. change (is_nl "%") with false. change (ceq "%" "%") with true.
    change (ceq "%" "*") with false. cbn [negb andb].
    assert (M : match cur ++ ["*"%char] with [] => true | _ => false end = false) by (destruct cur; reflexivity). rewrite M. cbv iota.
    destruct (split_loop [] false rest) as [ys t] eqn:SL. cbn [fst].
    assert (E2 : old ++ strip ((cur ++ ["*"%char]) ++ ["%"%char]) = "%"%char :: x ++ T "*%").
    { rewrite strip_solid.
      - rewrite <- app_assoc, app_assoc, E. reflexivity.
      - assert (A : forallb (fun c => negb (is_space c)) (old ++ cur) = true) by (rewrite E; cbn [forallb]; now apply solid_nospace).
        rewrite forallb_app in A. apply andb_prop in A as [_ A]. rewrite !forallb_app, A. reflexivity. }
    cbn [parse_cmds]. rewrite E2. cbv zeta. cbv iota. replace (continues ("%"%char :: x ++ T "*%")) with false; [reflexivity|].
    unfold continues. change (T "*%") with (T "*" ++ T "%"). rewrite app_assoc, app_comm_cons, ends_percent. cbn [negb]. now rewrite Bool.andb_false_r.
  - cbn [forallb] in Hb. apply andb_prop in Hb as [Hc Hb]. cbn [app split_loop]. unfold body_char in Hc. destruct (ceq_spec c nl) as [->|Nn].
    + change (ceq nl "%") with false. change (is_nl nl) with true. cbn [andb]. cbv iota. cbn [nonl filter]. change (ceq nl nl) with true. cbn [negb]. fold (nonl b).
      destruct (split_loop [] true (b ++ T "*%" ++ rest)) as [ys t] eqn:SL. cbn [fst].
      assert (F : forall o, o ++ [] = "%"%char :: x -> parse_cmds inc st o ys = parse_cmds inc st o (fst (split_loop [] true (b ++ T "*%" ++ rest)))) by now rewrite SL.
      destruct cur as [|k cur].
      * rewrite (F _ E). apply IH; auto.
      * cbn [parse_cmds]. rewrite (NS _ _ _ E Hx), E. cbv zeta. cbv iota.
        assert (K : continues ("%"%char :: x) = true).
        { unfold continues. rewrite ends_solid by auto. cbn [tl]. rewrite solid_char_in by auto. reflexivity. }
        rewrite K. rewrite F by apply app_nil_r. apply IH; auto; [apply app_nil_r|now left].
    + rewrite Bool.orb_false_r in Hc. rewrite (solid_no_percent c Hc), (solid_no_nl c Hc). cbn [andb negb]. cbv iota.
      rewrite (IH old (cur ++ [c]) (x ++ [c])).
      * cbn [nonl filter]. destruct (ceq_spec c nl); [contradiction|]. cbn [negb]. fold (nonl b). now rewrite <- !app_assoc.
      * exact Hb.
      * rewrite app_assoc, E. reflexivity.
      * destruct x; discriminate.
      * rewrite forallb_app, Hx. cbn. now rewrite Hc.
      * right. destruct cur; discriminate.
Qed.

Lemma not_percent_amchar t : forallb amchar t = true -> forallb (not_in "%") t = true.
Proof. apply forallb_impl. intros c. destruct c as [[] [] [] [] [] [] [] []]; cbv; intros H; (reflexivity || discriminate H). Qed.

Lemma am_match name body rest : macro_name name -> forallb (not_in "%") body = true ->
  re_match (param_wrap AM) (T "%AM" ++ name ++ T "*" ++ body ++ T "*%" ++ rest) =
  Some ([(T "macro", body); (T "name", name); (T "param", T "AM")], rest).
Proof.
  intros Hn Hb. eapply first_match. unfold param_wrap, AM. cbn [seqs].
  replace [(T "macro", body); (T "name", name); (T "param", T "AM")] with (([] ++ ((([(T "macro", body)] ++ []) ++ [(T "name", name)]) ++ [(T "param", T "AM")])) ++ []) by reflexivity.
  eapply first_seq; [apply first_opt, (first_lit (T "%") (T "AM" ++ name ++ T "*" ++ body ++ T "*%" ++ rest))|].
  eapply (first_seq_back _ _ _ (T "AM" ++ name ++ T "*" ++ body) _ (T "*%" ++ rest)).
  - eapply (firstb_seq _ _ _ (T "AM") [(T "param", T "AM")]); [apply (first_grp (T "param")), first_lit|].
    eapply (firstb_seq _ _ _ name [(T "name", name)]); [apply (first_grp (T "name")), first_name; [exact Hn|reflexivity]|].
    eapply (firstb_seq _ _ _ (T "*") []); [apply (first_lit (T "*"))|].
    apply (firstb_grp (T "macro")). change (T "*%" ++ rest) with (T "*" ++ T "%" ++ rest). apply firstb_star; [|reflexivity|].
    + rewrite forallb_app, Hb. reflexivity.
    + intros x1 x2 N E. destruct x1 as [|a x1]; [contradiction|]. injection E as _ E.
      destruct x1; [|discriminate E]. cbn [app] in E. subst x2. reflexivity.
  - eexists. reflexivity.
Qed.

Lemma step_macro inc st name body rest : macro_name name -> forallb (not_in "%") body = true ->
  parse_step inc st (T "%AM" ++ name ++ T "*" ++ body ++ T "*%" ++ rest) =
  Some (do i <- read_macro body; Ok ([SAM name body []], st, rest)).
Proof.
  intros Hn Hb. pose proof (am_match name body rest Hn Hb) as M. unfold parse_step. cbn [T list_ascii_of_string app] in *.
  change (ceq "%" "*") with false. cbv iota. set (s := "%"%char :: "A"%char :: "M"%char :: _) in *.
  change (re_match COORD_STMT s) with (@None (caps * text)).
  change (re_match APERTURE_STMT s) with (@None (caps * text)). cbv iota.
  change (match_one_from_many PARAM_STMT s) with (match_one_from_many (param_wrap AM :: map param_wrap [AS; IF_; IN; IP; IR; MI; OF; SF; LN]) s).
  cbn [match_one_from_many]. rewrite M. f_equal.
  transitivity (do x <- (do _ <- read_macro body; Ok (SAM name body [])); Ok ([x], st, rest)); [reflexivity|].
  destruct (read_macro body); reflexivity.
Qed.

Lemma nonl_solid t : forallb amchar t = true -> forallb amchar (nonl t) = true.
Proof. unfold nonl. intros H. rewrite forallb_forall in *. intros x Hx. apply filter_In in Hx as [Hx _]. auto. Qed.
Lemma name_solid name : macro_name name -> forallb solid name = true.
Proof.
  destruct name as [|c n]; [intros []|]. intros (Hc & _ & Hn). cbn [forallb].
  assert (K : forall x, In x (letter ++ T "0123456789+-") -> solid x = true).
  { assert (A : forallb solid (letter ++ T "0123456789+-") = true) by reflexivity. rewrite forallb_forall in A. exact A. }
  rewrite K by (apply in_or_app; now left). apply forallb_forall. rewrite Forall_forall in Hn. auto.
Qed.

Lemma nonl_noop t : forallb solid t = true -> nonl t = t.
Proof.
  induction t as [|c t IH]; [reflexivity|]. cbn [forallb]. intros H. apply andb_prop in H as [A B]. cbn [nonl filter].
  destruct (ceq_spec c nl) as [->|N]; [discriminate A|]. cbn [negb]. f_equal. now apply IH.
Qed.

(** A macro statement followed by anything: the statement that is read. *)
Lemma macro_statement_any name ps : macro_name name -> ps <> [] -> Forall prim_writable ps ->
  exists macro instrs, read_macro macro = Ok instrs /\ (forall v, am_build instrs v = Ok ps) /\
  forall inc st rest hdr, parse_cmds inc st [] (fst (split_loop [] hdr (am_to_gerber name ps ++ rest))) =
  (do o2 <- parse_cmds inc st [] (fst (split_loop [] false rest)); let '(l', st'') := o2 in Ok (SAM name macro [] :: l', st'')).
Proof.
  intros Hn NE W. destruct (blocks_of ps W) as (bs & ys & Bo & Bt & Bv & By).
  destruct (prims_last ps NE W) as [b Eb]. pose proof (prims_amchar ps W) as Am. rewrite Eb in Am, Bt.
  rewrite forallb_app in Am. apply andb_prop in Am as [Am _]. rewrite nonl_app in Bt. change (nonl (T "*")) with (T "*") in Bt.
  assert (X : exists is, read_macro (macro_text bs) = Ok is /\ forall v, am_build is v = Ok ps).
  { destruct (macro_meaning_lemma bs [] [] Bo) as (is & R & _). exists is. split; [exact R|]. intros v.
    destruct (macro_meaning_lemma bs v [] Bo) as (is' & R' & Ev). rewrite R in R'. apply ok_inj in R'. subst is'.
    unfold am_build. rewrite Ev, Bv. cbn [bind fst]. exact By. }
  destruct X as (is & R & Ev). rewrite <- Bt, read_macro_star in R.
  exists (nonl b), is. split; [exact R|]. split; [exact Ev|].
  intros inc st rest hdr. unfold am_to_gerber. rewrite Eb.
  replace ((T "%AM" ++ name ++ T "*" ++ (b ++ T "*") ++ T "%") ++ rest) with ("%"%char :: (T "AM" ++ name ++ T "*" ++ b) ++ T "*%" ++ rest)
    by (cbn [T list_ascii_of_string app]; rewrite <- !app_assoc; cbn [app]; rewrite <- !app_assoc; reflexivity).
  assert (E : fst (split_loop [] hdr ("%"%char :: (T "AM" ++ name ++ T "*" ++ b) ++ T "*%" ++ rest)) =
              fst (split_loop (T "%A") true ((T "M" ++ name ++ T "*" ++ b) ++ T "*%" ++ rest))) by reflexivity.
  rewrite E. clear E. rewrite (gather inc st rest (T "M" ++ name ++ T "*" ++ b) [] (T "%A") (T "A")); try reflexivity; [| |discriminate|right; discriminate].
  - assert (E : ("%"%char :: T "A" ++ nonl (T "M" ++ name ++ T "*" ++ b) ++ T "*%") = T "%AM" ++ name ++ T "*" ++ nonl b ++ T "*%" ++ []).
    { rewrite !nonl_app. rewrite (nonl_noop name) by now apply name_solid. rewrite app_nil_r. cbn [T list_ascii_of_string nonl filter]. change (negb (ceq "M" nl)) with true.
      change (negb (ceq "*" nl)) with true. cbn [app]. rewrite <- app_assoc. reflexivity. }
    rewrite E. clear E. set (line := T "%AM" ++ name ++ T "*" ++ nonl b ++ T "*%" ++ []).
    assert (PL : parse_line (Datatypes.S (List.length line)) inc st line = Ok ([SAM name (nonl b) []], st, [])).
    { pose proof (step_macro inc st name (nonl b) [] Hn (not_percent_amchar _ (nonl_solid _ Am))) as SM. fold line in SM. rewrite R in SM. cbn [bind] in SM.
      cbn [parse_line]. rewrite SM. cbn [bind].
      assert (L : exists n, List.length line = Datatypes.S n) by (eexists; reflexivity). destruct L as [n ->]. reflexivity. }
    rewrite PL. cbn [bind]. destruct (parse_cmds inc st [] (fst (split_loop [] false rest))) as [[l' st'']|]; reflexivity.
  - rewrite !forallb_app. rewrite (forallb_impl solid body_char name) by (try (now apply name_solid); intros c H; unfold body_char; now rewrite H).
    rewrite (forallb_impl amchar body_char b amchar_body Am). reflexivity.
Qed.

Lemma macro_statement inc st name ps rest : macro_name name -> ps <> [] -> Forall prim_writable ps ->
  exists macro instrs, read_macro macro = Ok instrs /\ am_build instrs [] = Ok ps /\
  forall hdr, parse_cmds inc st [] (fst (split_loop [] hdr (am_to_gerber name ps ++ rest))) =
  (do o2 <- parse_cmds inc st [] (fst (split_loop [] false rest)); let '(l', st'') := o2 in Ok (SAM name macro [] :: l', st'')).
Proof.
  intros Hn NE W. destruct (macro_statement_any name ps Hn NE W) as (m & i & R & B & P). exists m, i. auto.
Qed.

(** The statement alone in a file. *)
Lemma macro_file fs name ps : macro_name name -> ps <> [] -> Forall prim_writable ps ->
  exists macro instrs, parse_text fs (am_to_gerber name ps ++ [nl]) = Ok ([SAM name macro []], pset0) /\
    read_macro macro = Ok instrs /\ am_build instrs [] = Ok ps.
Proof.
  intros Hn NE W. unfold parse_text. rewrite parse_data_eq. unfold split_commands. 
  match goal with |- context [parse_cmds ?inc _ _ _] => destruct (macro_statement inc pset0 name ps [nl] Hn NE W) as (macro & is & R & B & P) end.
  exists macro, is. split; [|now split]. rewrite P. reflexivity.
Qed.
