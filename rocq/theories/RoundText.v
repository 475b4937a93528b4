(** The text of a statement is the text of the statement with rounded numbers. *)
From Verif Require Import Regex FmtModel NumProofs FmtProofs GerberTextProofs RoundSpec.
Open Scope list_scope.
Open Scope Qc_scope.

(** ** Coordinates *)
Lemma is_neg_sgn v d : scaled v d <> 0%Z -> is_neg (readback v d) = is_neg v.
Proof.
  intros N. pose proof (scaled_nonneg v d) as S. assert (P : 0 < dec (scaled v d) d).
  { replace 0 with (dec 0 d) by (symmetry; apply dec_eq; rewrite zq_0; ring). apply Qcnot_le_lt. intros L. apply dec_le in L. lia. }
  unfold readback, is_neg, sgn. destruct (qclt_spec v 0) as [H|H].
  - destruct (qclt_spec (- dec (scaled v d) d) 0) as [G|G]; [reflexivity|exfalso; apply G; qclra].
  - destruct (qclt_spec (dec (scaled v d) d) 0) as [G|G]; [exfalso; qclra|reflexivity].
Qed.
Lemma readback_is_dec v d : exists k, readback v d = dec k d /\ Z.abs k = scaled v d.
Proof.
  pose proof (scaled_nonneg v d). unfold readback, sgn. destruct (is_neg v).
  - exists (- scaled v d)%Z. rewrite dec_opp. split; [reflexivity|lia].
  - exists (scaled v d). split; [reflexivity|lia].
Qed.
Lemma scaled_readback v d : scaled (readback v d) d = scaled v d.
Proof. destruct (readback_is_dec v d) as (k & -> & E). now rewrite scaled_dec. Qed.
Lemma write_rounded v i d zs : usable_format i d -> fits i d v ->
  write_gerber_value v (i, d) zs = write_gerber_value (readback v d) (i, d) zs.
Proof.
  intros U F. apply fits_scaled in F. rewrite !write_spec by (rewrite ?scaled_readback; auto). rewrite scaled_readback.
  destruct (Z.eqb_spec (scaled v d) 0) as [E|E]; [reflexivity|]. now rewrite is_neg_sgn.
Qed.
Definition round_coord (st : pset) (v : Qc) : Qc := readback v (snd (p_fmt st)).
Lemma round_on_grid st v : fits (fst (p_fmt st)) (snd (p_fmt st)) v -> on_grid st (round_coord st v).
Proof.
  intros F. apply fits_scaled in F. destruct (readback_is_dec v (snd (p_fmt st))) as (k & E & A). exists k. unfold round_coord. rewrite E, grid_dec.
  split; [reflexivity|]. rewrite A. exact F.
Qed.

(** ** Dimensions *)
(** The digits and the exponent of a value written with P digits. *)
Definition digits_exp (P : nat) (v : Qc) : Z * Z :=
  let e0 := flog10 v in
  let n0 := rhe (v * qpow10 (Z.of_nat P - 1 - e0)) in
  if (n0 =? p10 P)%Z then (p10 (P - 1), e0 + 1)%Z else (n0, e0).
Lemma fmt_g_pos_digits P v : fmt_g_pos P v = let (n, e) := digits_exp P v in
  if ((-4 <=? e) && (e <? Z.of_nat P))%Z then show_fixed n (Z.to_nat (Z.of_nat P - 1 - e)) else show_fixed n (P - 1) ++ show_exp e.
Proof. reflexivity. Qed.
Lemma digits_exp_spec P v n e : (1 <= P)%nat -> 0 < v -> digits_exp P v = (n, e) ->
  (p10 (P - 1) <= n < p10 P)%Z /\ round_sig P v = zq n * qpow10 (e - (Z.of_nat P - 1)).
Proof.
  intros HP Hv E. pose proof (flog10_spec v Hv) as [F1 F2]. unfold digits_exp in E. unfold round_sig.
  set (e0 := flog10 v) in *. set (n0 := rhe (v * qpow10 (Z.of_nat P - 1 - e0))) in *.
  assert (Q : p10 P = (10 * p10 (P - 1))%Z) by (replace P with (S (P - 1)) at 1 by lia; apply p10_S).
  pose proof (p10_pos (P - 1)) as Pp.
  assert (L : (p10 (P - 1) <= n0)%Z).
  { unfold n0. rewrite <- (rhe_zq (p10 (P - 1))). apply rhe_mono. rewrite <- qpow10_nat.
    replace (Z.of_nat (P - 1)) with (e0 + (Z.of_nat P - 1 - e0))%Z by lia. rewrite qpow10_add. apply Qcmult_le_compat_r; [exact F1|apply Qclt_le_weak, qpow10_pos]. }
  assert (H : (n0 <= p10 P)%Z).
  { unfold n0. rewrite <- (rhe_zq (p10 P)). apply rhe_mono. rewrite <- qpow10_nat.
    replace (Z.of_nat P) with (e0 + 1 + (Z.of_nat P - 1 - e0))%Z at 2 by lia. rewrite qpow10_add.
    apply Qcmult_le_compat_r; [now apply Qclt_le_weak|apply Qclt_le_weak, qpow10_pos]. }
  destruct (Z.eqb_spec n0 (p10 P)) as [X|X]; injection E as <- <-.
  - split; [lia|]. rewrite X, Q, zq_mult. replace (zq 10) with (qpow10 1) by (apply qc_eq_iff; reflexivity).
    rewrite (Qcmult_comm (qpow10 1)), <- Qcmult_assoc, <- qpow10_add. f_equal. f_equal. lia.
  - split; [lia|reflexivity].
Qed.
Lemma flog10_unique v e : 0 < v -> qpow10 e <= v -> v < qpow10 (e + 1) -> flog10 v = e.
Proof.
  intros Hv L U. destruct (flog10_spec v Hv) as [L' U'].
  assert (A : (e < flog10 v + 1)%Z) by (apply qpow10_le_inv; eapply Qcle_lt_trans; eauto).
  assert (B : (flog10 v < e + 1)%Z) by (apply qpow10_le_inv; eapply Qcle_lt_trans; eauto). lia.
Qed.
Lemma round_sig_pos P v : (1 <= P)%nat -> 0 < v -> 0 < round_sig P v.
Proof.
  intros HP Hv. destruct (digits_exp P v) as [n e] eqn:E. destruct (digits_exp_spec P v n e HP Hv E) as [B ->].
  pose proof (qpow10_pos (e - (Z.of_nat P - 1))) as Q. pose proof (p10_pos (P - 1)). rewrite <- (Qcmult_0_l (qpow10 (e - (Z.of_nat P - 1)))). apply Qcmult_lt_compat_r; [exact Q|].
  rewrite <- zq_0. apply zq_lt. lia.
Qed.
Lemma digits_exp_again P v : (1 <= P)%nat -> 0 < v -> digits_exp P (round_sig P v) = digits_exp P v.
Proof.
  intros HP Hv. pose proof (round_sig_pos P v HP Hv) as Hw. destruct (digits_exp P v) as [n e] eqn:E. destruct (digits_exp_spec P v n e HP Hv E) as [B W].
  assert (Q : p10 P = (10 * p10 (P - 1))%Z) by (replace P with (S (P - 1)) at 1 by lia; apply p10_S).
  set (w := round_sig P v) in *. pose proof (qpow10_pos (e - (Z.of_nat P - 1))) as Qp.
  assert (F : flog10 w = e).
  { apply flog10_unique; [exact Hw| |]; rewrite W.
    - replace e with (Z.of_nat (P - 1) + (e - (Z.of_nat P - 1)))%Z at 1 by lia. rewrite qpow10_add, qpow10_nat. apply Qcmult_le_compat_r; [apply zq_le; lia|now apply Qclt_le_weak].
    - replace (e + 1)%Z with (Z.of_nat P + (e - (Z.of_nat P - 1)))%Z by lia. rewrite qpow10_add, qpow10_nat. apply Qcmult_lt_compat_r; [exact Qp|apply zq_lt; lia]. }
  unfold digits_exp. rewrite F. assert (N : rhe (w * qpow10 (Z.of_nat P - 1 - e)) = n).
  { rewrite W, <- Qcmult_assoc, <- qpow10_add. replace (e - (Z.of_nat P - 1) + (Z.of_nat P - 1 - e))%Z with 0%Z by lia. rewrite qpow10_0, Qcmult_1_r. apply rhe_zq. }
  rewrite N. destruct (Z.eqb_spec n (p10 P)); [lia|reflexivity].
Qed.
Lemma fmt_g_again P v : (1 <= P)%nat -> fmt_g P (round_sig_signed P v) = fmt_g P v.
Proof.
  intros HP. unfold round_sig_signed. destruct (qceq_spec v 0) as [->|Hz]; [reflexivity|].
  assert (Pos : forall w, 0 < w -> fmt_g_pos P (round_sig P w) = fmt_g_pos P w) by (intros w Hw; rewrite !fmt_g_pos_digits, digits_exp_again; auto).
  unfold fmt_g at 2. destruct (qceq_spec v 0) as [|_]; [contradiction|]. destruct (qclt_spec v 0) as [H|H].
  - assert (0 < - v) as Hm by qclra. pose proof (round_sig_pos P (- v) HP Hm) as R. unfold fmt_g.
    destruct (qceq_spec (- round_sig P (- v)) 0) as [Y|_]; [exfalso; rewrite <- (Qcopp_involutive (round_sig P (- v))), Y in R; discriminate R|].
    destruct (qclt_spec (- round_sig P (- v)) 0) as [_|Y]; [|exfalso; apply Y; qclra]. rewrite Qcopp_involutive. now rewrite Pos.
  - assert (Hv : 0 < v). { apply Qcnot_le_lt. intros C. apply Qcle_lt_or_eq in C as [C|C]; auto. }
    pose proof (round_sig_pos P v HP Hv) as R. unfold fmt_g.
    destruct (qceq_spec (round_sig P v) 0) as [Y|_]; [exfalso; rewrite Y in R; discriminate R|].
    destruct (qclt_spec (round_sig P v) 0) as [Y|_]; [exfalso; qclra|]. now apply Pos.
Qed.
Lemma qabs_opp v : qabs (- v) = qabs v.
Proof. unfold qabs. destruct (Qclt_le_dec (- v) 0), (Qclt_le_dec v 0); try ring; qclra. Qed.
Lemma qabs_pos v : 0 < v -> qabs v = v.
Proof. intros H. unfold qabs. destruct (Qclt_le_dec v 0); [exfalso; qclra|reflexivity]. Qed.
Definition round4 (v : Qc) : Qc := round_sig_signed 4 v.
Lemma round4_about v : about v (round4 v).
Proof.
  assert (Pos : forall w, 0 < w -> about w (round4 w)).
  { intros w Hw. destruct (reads4_close w Hw) as (x & R & C). unfold reads4 in R. rewrite py_float_fmt_g in R by lia. apply ok_inj in R. unfold about, round4. rewrite R, (qabs_pos w Hw). exact C. }
  destruct (Qclt_le_dec v 0) as [H|H].
  - specialize (Pos (- v) ltac:(qclra)). unfold about, round4 in *. rewrite round_sig_signed_opp, qabs_opp in Pos.
    replace (- v - - round_sig_signed 4 v) with (- (v - round_sig_signed 4 v)) in Pos by ring. now rewrite qabs_opp in Pos.
  - apply Qcle_lt_or_eq in H as [H|H]; [now apply Pos|]. subst v. unfold about. vm_compute. discriminate.
Qed.
Lemma round4_digits v : at_most_digits 4 (round4 v).
Proof.
  assert (Pos : forall w, 0 < w -> exists m k l, (Z.abs m < 10 ^ Z.of_nat 4)%Z /\ round_sig 4 w * ten k = Q2Qc (inject_Z m) * ten l).
  { intros w Hw. destruct (digits_exp 4 w) as [n e] eqn:E. destruct (digits_exp_spec 4 w n e ltac:(lia) Hw E) as [B W]. pose proof (p10_pos 3).
    destruct (z_frac (e - (Z.of_nat 4 - 1))) as (a & b & F). exists n, a, b. split; [change (10 ^ Z.of_nat 4)%Z with (p10 4); change (4 - 1)%nat with 3%nat in B; lia|].
    rewrite W, (qpow10_frac _ a b F), !ten_p10. fold (zq n). field. apply zq_p10_nonzero. }
  unfold at_most_digits, round4, round_sig_signed. destruct (qceq_spec v 0) as [->|Hz].
  - exists 0%Z, 0%nat, 0%nat. split; [reflexivity|]. vm_compute. reflexivity.
  - destruct (qclt_spec v 0) as [H|H].
    + destruct (Pos (- v) ltac:(qclra)) as (m & k & l & M & E). exists (- m)%Z, k, l. split; [lia|]. fold (zq (- m)). rewrite zq_opp. fold (zq m) in E.
      replace (- round_sig 4 (- v) * ten k) with (- (round_sig 4 (- v) * ten k)) by ring. rewrite E. ring.
    + apply Pos. apply Qcnot_le_lt. intros C. apply Qcle_lt_or_eq in C as [C|C]; auto.
Qed.
Lemma round4_whole k : (0 <= k < 10000)%Z -> round4 (zq k) = zq k.
Proof.
  intros B. unfold round4. apply (round_sig_signed_exact 4 _ k 0); [lia|change (p10 4) with 10000%Z; lia|]. rewrite qpow10_0. ring.
Qed.

(** ** Statements *)
Definition round_stmt (st : pset) (s : stmt) : stmt :=
  match s with
  | SCoord fn x y i j op => SCoord fn (option_map (round_coord st) x) (option_map (round_coord st) y) (option_map (round_coord st) i) (option_map (round_coord st) j) op
  | SAD d shape m => SAD d shape (map (map round4) m)
  | _ => s
  end.
Lemma round_same_text st s : announceable st -> fitting st s -> to_gerber st (round_stmt st s) = to_gerber st s.
Proof.
  intros [Z U] F. destruct F as [fn x y i j op Hf Ho X Y I' J N|d shape l D S NE W|s W C A].
  - cbn [round_stmt to_gerber].
    assert (G : forall c o, opt_fits st o -> coord_field st c (option_map (round_coord st) o) = coord_field st c o).
    { intros c [v|] H; [|reflexivity]. cbn [option_map coord_field]. unfold round_coord. destruct (p_fmt st) as [a b] eqn:E. cbn [fst snd] in *. unfold opt_fits in H. rewrite E in H. cbn [fst snd] in H.
      now rewrite <- (write_rounded v a b (p_zs st) U H). }
    rewrite !G by assumption. reflexivity.
  - cbn [round_stmt to_gerber map any_mods existsb]. replace (match map round4 l with [] => false | _ => true end) with (match l with [] => false | _ => true end) by (destruct l; reflexivity).
    rewrite map_map. replace (map (fun x => fmt_g 4 (round4 x)) l) with (map (fmt_g 4) l); [reflexivity|]. apply map_ext. intros v. symmetry. apply fmt_g_again. lia.
  - destruct s; try reflexivity; [exfalso; eapply A; reflexivity|exfalso; eapply C; reflexivity].
Qed.
Lemma round_writable st s : announceable st -> fitting st s -> line_writable st (round_stmt st s).
Proof.
  intros An F. destruct F as [fn x y i j op Hf Ho X Y I' J N|d shape l D S NE W|s W C A].
  - apply LW_stmt. cbn [round_stmt]. assert (G : forall o, opt_fits st o -> opt_on_grid st (option_map (round_coord st) o)).
    { intros [v|] H; [|exact I]. now apply round_on_grid. }
    apply W_coord; auto. intros E. apply N. injection E as -> E1 E2 E3 E4 ->. destruct x, y, i, j; try discriminate; reflexivity.
  - apply LW_stmt. cbn [round_stmt map]. assert (G : Forall (at_most_digits 4) (map round4 l)).
    { apply Forall_forall. intros w H. apply in_map_iff in H as (v & <- & _). apply round4_digits. }
    assert (NE' : map round4 l <> []) by (destruct l; [contradiction|discriminate]).
    destruct S as [<-|S]; [apply W_define_circle; auto|apply W_define_other; auto].
  - destruct s; try exact W; [exfalso; eapply A; reflexivity|exfalso; eapply C; reflexivity].
Qed.
Lemma round_rounded st s : fitting st s -> rounded (half_ulp (snd (p_fmt st))) s (round_stmt st s).
Proof.
  intros F. destruct F as [fn x y i j op Hf Ho X Y I' J N|d shape l D S NE W|s W C A].
  - assert (G : forall o, maybe (within (half_ulp (snd (p_fmt st)))) o (option_map (round_coord st) o)) by (intros [v|]; [apply readback_close|exact I]).
    cbn [round_stmt]. constructor; apply G.
  - cbn [round_stmt map]. constructor; auto.
    + clear. induction l; cbn; constructor; auto using round4_about.
    + intros ->. specialize (W eq_refl). destruct l as [|a [|n l]]; cbn; auto. destruct W as (k & B & ->). now apply round4_whole.
  - destruct s; try (apply Rd_same; assumption); [exfalso; eapply A; reflexivity|exfalso; eapply C; reflexivity].
Qed.
Lemma write_round st l : announceable st -> Forall (fitting st) l -> write_file st (map (round_stmt st) l) = write_file st l.
Proof.
  intros An. induction 1 as [|s l Hs Hl IH]; [reflexivity|]. cbn [map write_file]. now rewrite round_same_text, IH.
Qed.
Lemma rounded_file st l : announceable st -> Forall (fitting st) l -> format_before_coords l ->
  exists t l', write_file st l = Ok t /\ write_file st l' = Ok t /\ (forall fs, parse_text fs t = Ok (l', fold_left after l pset0)) /\
    Forall2 (rounded (half_ulp (snd (p_fmt st)))) l l'.
Proof.
  intros An F B. assert (W : Forall (line_writable st) (map (round_stmt st) l)).
  { apply Forall_forall. intros s H. apply in_map_iff in H as (s0 & <- & H). rewrite Forall_forall in F. apply round_writable; auto. }
  assert (B' : format_before_coords (map (round_stmt st) l)).
  { clear - B. induction l as [|s l IH]; [exact I|]. cbn [map]. destruct s; cbn [round_stmt format_before_coords] in *; auto. }
  destruct (file_roundtrip st _ An W B') as (t & E & P). exists t, (map (round_stmt st) l).
  split; [rewrite <- E; symmetry; now apply write_round|]. split; [exact E|]. split.
  - intros fs. rewrite P. f_equal. f_equal. clear. revert l. assert (G : forall l p, fold_left after (map (round_stmt st) l) p = fold_left after l p).
    { induction l as [|s l IH]; intros p; [reflexivity|]. cbn [map fold_left]. rewrite IH. f_equal. destruct s; reflexivity. }
    intros l. apply G.
  - clear - F. induction F; cbn; constructor; auto. now apply round_rounded.
Qed.
