(** Exact rationals: helper lemmas and a linear-arithmetic tactic for stdlib's [Qc]. *)
From Coq Require Export QArith Qcanon.
From Coq Require Import Lqa ZArith Lia.
From Verif Require Import PyBase.

(** Embedding of integers. *)
Definition zq (z : Z) : Qc := Q2Qc (inject_Z z).

Lemma this_Q2Qc q : (this (Q2Qc q) == q)%Q.
Proof. apply Qred_correct. Qed.

Lemma this_plus a b : (this (a + b)%Qc == this a + this b)%Q.
Proof. apply this_Q2Qc. Qed.
Lemma this_minus a b : (this (a - b)%Qc == this a - this b)%Q.
Proof. unfold Qcminus, Qminus. rewrite this_plus. apply Qplus_comp; [reflexivity|]. apply this_Q2Qc. Qed.
Lemma this_opp a : (this (- a)%Qc == - this a)%Q.
Proof. apply this_Q2Qc. Qed.
Lemma this_mult a b : (this (a * b)%Qc == this a * this b)%Q.
Proof. apply this_Q2Qc. Qed.
Lemma this_inv a : (this (/ a)%Qc == / this a)%Q.
Proof. apply this_Q2Qc. Qed.
Lemma this_div a b : (this (a / b)%Qc == this a / this b)%Q.
Proof. unfold Qcdiv, Qdiv. rewrite this_mult, this_inv. reflexivity. Qed.
Lemma this_zq z : (this (zq z) == inject_Z z)%Q.
Proof. apply this_Q2Qc. Qed.

Lemma qc_eq_iff (a b : Qc) : a = b <-> (this a == this b)%Q.
Proof. split; [intros ->; reflexivity | apply Qc_is_canon]. Qed.

Lemma zq_plus a b : zq (a + b) = (zq a + zq b)%Qc.
Proof. apply qc_eq_iff. rewrite this_plus, !this_zq. rewrite inject_Z_plus; reflexivity. Qed.
Lemma zq_mult a b : zq (a * b) = (zq a * zq b)%Qc.
Proof. apply qc_eq_iff. rewrite this_mult, !this_zq. rewrite inject_Z_mult; reflexivity. Qed.
Lemma zq_opp a : zq (- a) = (- zq a)%Qc.
Proof. apply qc_eq_iff. rewrite this_opp, !this_zq. rewrite inject_Z_opp; reflexivity. Qed.
Lemma zq_minus a b : zq (a - b) = (zq a - zq b)%Qc.
Proof. unfold Z.sub, Qcminus. now rewrite zq_plus, zq_opp. Qed.
Lemma zq_le a b : (zq a <= zq b)%Qc <-> (a <= b)%Z.
Proof. unfold Qcle. rewrite !this_zq. rewrite <- Zle_Qle; reflexivity. Qed.
Lemma zq_lt a b : (zq a < zq b)%Qc <-> (a < b)%Z.
Proof. unfold Qclt. rewrite !this_zq. rewrite <- Zlt_Qlt; reflexivity. Qed.
Lemma zq_inj a b : zq a = zq b <-> a = b.
Proof.
  split; [|now intros ->]. intros H. apply Z.le_antisymm; apply zq_le; rewrite H; apply Qcle_refl.
Qed.
Lemma zq_0 : zq 0 = 0%Qc.
Proof. apply qc_eq_iff. reflexivity. Qed.
Lemma zq_1 : zq 1 = 1%Qc.
Proof. apply qc_eq_iff. reflexivity. Qed.

(** Boolean tests. *)
Definition qceq (a b : Qc) : bool := Qeq_bool (this a) (this b).
Definition qcle (a b : Qc) : bool := Qle_bool (this a) (this b).
Definition qclt (a b : Qc) : bool := negb (qcle b a).

Lemma qceq_true a b : qceq a b = true <-> a = b.
Proof. unfold qceq. rewrite Qeq_bool_iff. symmetry. apply qc_eq_iff. Qed.
Lemma qceq_spec a b : reflect (a = b) (qceq a b).
Proof. apply iff_reflect. symmetry. apply qceq_true. Qed.
Lemma qceq_refl a : qceq a a = true.
Proof. now apply qceq_true. Qed.
Lemma qcle_true a b : qcle a b = true <-> (a <= b)%Qc.
Proof. unfold qcle, Qcle. apply Qle_bool_iff. Qed.
Lemma qcle_spec a b : reflect (a <= b)%Qc (qcle a b).
Proof. apply iff_reflect. symmetry. apply qcle_true. Qed.
Lemma qclt_true a b : qclt a b = true <-> (a < b)%Qc.
Proof.
  unfold qclt. destruct (qcle_spec b a) as [H|H]; simpl; split; intros G; try easy.
  - apply Qcle_not_lt in H. contradiction.
  - now apply Qcnot_le_lt.
Qed.
Lemma qclt_spec a b : reflect (a < b)%Qc (qclt a b).
Proof. apply iff_reflect. symmetry. apply qclt_true. Qed.

Definition qcmin (a b : Qc) : Qc := if qcle a b then a else b.
Definition qcmax (a b : Qc) : Qc := if qcle a b then b else a.

(** Reduce linear goals and hypotheses over [Qc] to [Q] and call [lra]. *)
Ltac qc_pose t lem :=
  let ty := type of lem in
  lazymatch goal with
  | H : ty |- _ => fail
  | _ => pose proof lem
  end.
Ltac qc_terms :=
  repeat match goal with
  | |- context [Qcplus ?a ?b] => qc_pose (Qcplus a b) (this_plus a b)
  | |- context [Qcminus ?a ?b] => qc_pose (Qcminus a b) (this_minus a b)
  | |- context [Qcopp ?a] => qc_pose (Qcopp a) (this_opp a)
  | |- context [Qcmult ?a ?b] => qc_pose (Qcmult a b) (this_mult a b)
  | |- context [Qcdiv ?a ?b] => qc_pose (Qcdiv a b) (this_div a b)
  | |- context [zq ?a] => qc_pose (zq a) (this_zq a)
  | |- context [Q2Qc ?q] => qc_pose (Q2Qc q) (this_Q2Qc q)
  | H : context [Qcplus ?a ?b] |- _ => qc_pose (Qcplus a b) (this_plus a b)
  | H : context [Qcminus ?a ?b] |- _ => qc_pose (Qcminus a b) (this_minus a b)
  | H : context [Qcopp ?a] |- _ => qc_pose (Qcopp a) (this_opp a)
  | H : context [Qcmult ?a ?b] |- _ => qc_pose (Qcmult a b) (this_mult a b)
  | H : context [Qcdiv ?a ?b] |- _ => qc_pose (Qcdiv a b) (this_div a b)
  | H : context [zq ?a] |- _ => qc_pose (zq a) (this_zq a)
  | H : context [Q2Qc ?q] |- _ => qc_pose (Q2Qc q) (this_Q2Qc q)
  end.
Ltac qc_hyps :=
  repeat match goal with
  | H : @eq Qc ?a ?b |- _ => apply (proj1 (qc_eq_iff a b)) in H
  end;
  unfold Qcle, Qclt in *.
Ltac qclra :=
  repeat match goal with H : ?A -> ?B |- _ => clear H end;
  try match goal with |- @eq Qc _ _ => apply qc_eq_iff end;
  qc_hyps; qc_terms; unfold Qminus, Qdiv in *;
  change (this 0%Qc) with 0%Q in *; change (this 1%Qc) with 1%Q in *; lra.

Lemma qcmin_l a b : (qcmin a b <= a)%Qc.
Proof. unfold qcmin. destruct (qcle_spec a b) as [H|H]; [qclra|]. apply Qcnot_le_lt in H. qclra. Qed.
Lemma qcmin_r a b : (qcmin a b <= b)%Qc.
Proof. unfold qcmin. destruct (qcle_spec a b) as [H|H]; qclra. Qed.
Lemma qcmax_l a b : (a <= qcmax a b)%Qc.
Proof. unfold qcmax. destruct (qcle_spec a b) as [H|H]; qclra. Qed.
Lemma qcmax_r a b : (b <= qcmax a b)%Qc.
Proof. unfold qcmax. destruct (qcle_spec a b) as [H|H]; [qclra|]. apply Qcnot_le_lt in H. qclra. Qed.
Lemma qcmin_case a b : qcmin a b = a \/ qcmin a b = b.
Proof. unfold qcmin. destruct (qcle a b); auto. Qed.
Lemma qcmax_case a b : qcmax a b = a \/ qcmax a b = b.
Proof. unfold qcmax. destruct (qcle a b); auto. Qed.

(** [n / 10^k] *)
Definition p10 (k : nat) : Z := (10 ^ Z.of_nat k)%Z.
Definition dec (n : Z) (k : nat) : Qc := (zq n / zq (p10 k))%Qc.

Lemma p10_pos k : (0 < p10 k)%Z.
Proof. apply Z.pow_pos_nonneg; lia. Qed.
Lemma p10_0 : p10 0 = 1%Z.
Proof. reflexivity. Qed.
Lemma p10_S k : p10 (S k) = (10 * p10 k)%Z.
Proof. unfold p10. rewrite Nat2Z.inj_succ, Z.pow_succ_r by lia. reflexivity. Qed.
Lemma p10_add a b : p10 (a + b) = (p10 a * p10 b)%Z.
Proof. unfold p10. rewrite Nat2Z.inj_add, Z.pow_add_r by lia. reflexivity. Qed.
Lemma zq_nonzero z : z <> 0%Z -> zq z <> 0%Qc.
Proof. intros H E. rewrite <- zq_0 in E. now apply zq_inj in E. Qed.
Lemma zq_p10_nonzero k : zq (p10 k) <> 0%Qc.
Proof. apply zq_nonzero. pose proof (p10_pos k). lia. Qed.

Lemma dec_mult n k : (dec n k * zq (p10 k))%Qc = zq n.
Proof. unfold dec. field. apply zq_p10_nonzero. Qed.

Lemma dec_eq n k v : (v * zq (p10 k))%Qc = zq n -> v = dec n k.
Proof.
  intros H. unfold dec. rewrite <- H. field. apply zq_p10_nonzero.
Qed.

Lemma dec_shift n a b : dec (n * p10 b) (a + b) = dec n a.
Proof.
  unfold dec. rewrite p10_add, !zq_mult. field. split; apply zq_p10_nonzero.
Qed.

Lemma dec_inj n m k : dec n k = dec m k <-> n = m.
Proof.
  split; [|now intros ->]. intros H. apply (f_equal (fun v => v * zq (p10 k)))%Qc in H.
  rewrite !dec_mult in H. now apply zq_inj.
Qed.

Lemma dec_opp n k : dec (- n) k = (- dec n k)%Qc.
Proof. unfold dec. rewrite zq_opp. field. apply zq_p10_nonzero. Qed.

Lemma qc_mult_le_r a b c : (0 < c)%Qc -> (a <= b)%Qc <-> (a * c <= b * c)%Qc.
Proof.
  intros H. split; intros G.
  - apply Qcmult_le_compat_r; [auto|]. now apply Qclt_le_weak.
  - now apply (Qcmult_lt_0_le_reg_r _ _ c).
Qed.

Lemma zq_p10_pos k : (0 < zq (p10 k))%Qc.
Proof. rewrite <- zq_0. apply zq_lt. apply p10_pos. Qed.

Lemma dec_le n m k : (dec n k <= dec m k)%Qc <-> (n <= m)%Z.
Proof.
  rewrite (qc_mult_le_r _ _ (zq (p10 k)) (zq_p10_pos k)), !dec_mult. apply zq_le.
Qed.
