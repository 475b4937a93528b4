(** Lemmas about the convex hull. *)
From Verif Require Import PyBase GeomModel GeomSpec GeomProofs HullModel HullSpec.
From Coq Require Import Lia Lra Reals.
Import ListNotations.
Open Scope R_scope.
Open Scope list_scope.

Lemma ltb_t x y : ltb x y = true -> x < y.
Proof. unfold ltb. destruct (Rlt_dec x y); [auto|discriminate]. Qed.
Lemma ltb_f x y : ltb x y = false -> y <= x.
Proof. unfold ltb. destruct (Rlt_dec x y); [discriminate|lra]. Qed.
Lemma eqb_t x y : eqb x y = true -> x = y.
Proof. unfold eqb. destruct (Req_EM_T x y); [auto|discriminate]. Qed.
Lemma eqb_f x y : eqb x y = false -> x <> y.
Proof. unfold eqb. destruct (Req_EM_T x y); [discriminate|auto]. Qed.
Lemma eqb_r x : eqb x x = true.
Proof. unfold eqb. destruct (Req_EM_T x x); [auto|congruence]. Qed.
Ltac bools := repeat match goal with
  | H : ltb _ _ = true |- _ => apply ltb_t in H
  | H : ltb _ _ = false |- _ => apply ltb_f in H
  | H : eqb _ _ = true |- _ => apply eqb_t in H
  | H : eqb _ _ = false |- _ => apply eqb_f in H
  end.

(** ** Angles *)
Lemma atan2_range y x : - PI < atan2 y x <= PI.
Proof.
  pose proof PI_RGT_0 as P. unfold atan2. pose proof (atan_bound (y / x)) as B.
  destruct (Rlt_dec 0 x); [lra|]. destruct (Rlt_dec x 0).
  - destruct (Rle_dec 0 y).
    + assert (atan (y / x) <= 0); [|lra]. rewrite <- atan_0. destruct (Req_dec y 0) as [->|N].
      * unfold Rdiv. rewrite Rmult_0_l. lra.
      * left. apply atan_increasing. apply Ropp_lt_cancel. rewrite Ropp_0. replace (- (y / x)) with (y / - x) by (field; lra). apply Rdiv_lt_0_compat; lra.
    + assert (0 < atan (y / x)); [|lra]. rewrite <- atan_0. apply atan_increasing. replace (y / x) with (- y / - x) by (field; lra). apply Rdiv_lt_0_compat; lra.
  - destruct (Rlt_dec 0 y); [lra|]. destruct (Rlt_dec y 0); lra.
Qed.
Lemma atan2_right y x : 0 <= x -> - (PI / 2) <= atan2 y x <= PI / 2.
Proof.
  intro H. pose proof PI_RGT_0 as P. unfold atan2. pose proof (atan_bound (y / x)) as B.
  destruct (Rlt_dec 0 x); [lra|]. destruct (Rlt_dec x 0); [lra|]. destruct (Rlt_dec 0 y); [lra|]. destruct (Rlt_dec y 0); lra.
Qed.
Lemma atan2_right_strict y x : 0 < x -> - (PI / 2) < atan2 y x < PI / 2.
Proof. intro H. unfold atan2. pose proof (atan_bound (y / x)). destruct (Rlt_dec 0 x); lra. Qed.

(** A signed angle in (-pi, pi) has the sign of its sine. *)
Lemma sin_sign d : - PI < d < PI -> (0 < d <-> 0 < sin d) /\ (d < 0 <-> sin d < 0).
Proof.
  intros [A B]. destruct (Rtotal_order d 0) as [H|[->|H]].
  - assert (S : sin d < 0). { rewrite <- (Ropp_involutive d), sin_neg. pose proof (sin_gt_0 (- d)). lra. } lra.
  - rewrite sin_0. lra.
  - pose proof (sin_gt_0 d). lra.
Qed.

Lemma wrap_turns d : - (2 * PI) < d < 2 * PI -> - PI <= wrap d <= PI /\ sin (wrap d) = sin d /\ cos (wrap d) = cos d.
Proof.
  pose proof PI_RGT_0 as P. intros [A B]. unfold wrap. destruct (ltb d (- PI)) eqn:L; bools.
  - destruct (ltb PI (d + 2 * PI)) eqn:M; bools; [lra|]. split; [lra|]. split; [rewrite <- (sin_period d 1)|rewrite <- (cos_period d 1)]; f_equal; cbn [INR]; ring.
  - destruct (ltb PI d) eqn:M; bools; [|split; [lra|auto]]. split; [lra|].
    split; [rewrite <- (sin_period (d - 2 * PI) 1)|rewrite <- (cos_period (d - 2 * PI) 1)]; f_equal; cbn [INR]; ring.
Qed.

(** The angle between two vectors. *)
Definition len (x y : R) : R := sqrt (x ^ 2 + y ^ 2).
Lemma len_pos x y : x <> 0 \/ y <> 0 -> 0 < len x y.
Proof. intro H. apply sqrt_lt_R0. destruct H; nra. Qed.
Lemma turn_sincos yp xp yq xq : let d := atan2 yp xp - atan2 yq xq in
  len xp yp * len xq yq * sin d = yp * xq - xp * yq /\ len xp yp * len xq yq * cos d = xp * xq + yp * yq.
Proof.
  cbn zeta. destruct (atan2_polar yp xp) as [A B], (atan2_polar yq xq) as [C D]. fold (len xp yp) in A, B. fold (len xq yq) in C, D. cbn zeta in *.
  set (r := len xp yp) in *. set (s := len xq yq) in *. set (t := atan2 yp xp) in *. set (u := atan2 yq xq) in *.
  clearbody r s t u. subst. rewrite sin_minus, cos_minus. split; ring.
Qed.
Lemma sin_zero_range d : - PI <= d <= PI -> sin d = 0 -> d = 0 \/ cos d = -1.
Proof.
  intros [A B] S. destruct (Req_dec d PI) as [->|N]; [right; apply cos_PI|]. destruct (Req_dec d (- PI)) as [->|N'].
  - right. rewrite cos_neg. apply cos_PI.
  - left. destruct (sin_sign d) as [U V]; [lra|]. destruct (Rtotal_order d 0) as [H|[H|H]]; [|exact H|].
    + apply V in H. lra.
    + apply U in H. lra.
Qed.
Lemma wrap_sign yp xp yq xq : xp <> 0 \/ yp <> 0 -> xq <> 0 \/ yq <> 0 ->
  (xp * yq - yp * xq = 0 -> 0 < xp * xq + yp * yq) ->
  let d := wrap (atan2 yp xp - atan2 yq xq) in
  (d < 0 <-> 0 < xp * yq - yp * xq) /\ (0 < d <-> xp * yq - yp * xq < 0).
Proof.
  intros HP HQ N d. pose proof (atan2_range yp xp) as RP. pose proof (atan2_range yq xq) as RQ. pose proof PI_RGT_0 as P.
  destruct (turn_sincos yp xp yq xq) as [S C]. destruct (wrap_turns (atan2 yp xp - atan2 yq xq)) as (W & WS & WC); [lra|].
  rewrite <- WS in S. rewrite <- WC in C. fold d in W, S, C.
  pose proof (Rmult_lt_0_compat _ _ (len_pos _ _ HP) (len_pos _ _ HQ)) as L. set (k := len xp yp * len xq yq) in *. clearbody k d.
  assert (E : d <> PI /\ d <> - PI).
  { split; intros ->; [rewrite sin_PI in S; rewrite cos_PI in C|rewrite sin_neg, sin_PI in S; rewrite cos_neg, cos_PI in C]; assert (0 < xp * xq + yp * yq) by (apply N; lra); lra. }
  destruct (sin_sign d) as [U V]; [lra|]. split; split; intro H.
  - apply V in H. nra.
  - apply V. nra.
  - apply U in H. nra.
  - apply U. nra.
Qed.
Lemma same_angle_iff yp xp yq xq : xp <> 0 \/ yp <> 0 -> xq <> 0 \/ yq <> 0 ->
  (atan2 yp xp = atan2 yq xq <-> xp * yq - yp * xq = 0 /\ 0 < xp * xq + yp * yq).
Proof.
  intros HP HQ. pose proof (atan2_range yp xp) as RP. pose proof (atan2_range yq xq) as RQ. pose proof PI_RGT_0 as P.
  destruct (turn_sincos yp xp yq xq) as [S C].
  pose proof (Rmult_lt_0_compat _ _ (len_pos _ _ HP) (len_pos _ _ HQ)) as L. set (k := len xp yp * len xq yq) in *. clearbody k. split.
  - intros E. rewrite E, Rminus_diag_eq in S, C by reflexivity. rewrite sin_0 in S. rewrite cos_0 in C. lra.
  - intros [A B]. destruct (wrap_turns (atan2 yp xp - atan2 yq xq)) as (W & WS & WC); [lra|].
    rewrite <- WS in S. rewrite <- WC in C. assert (Z : sin (wrap (atan2 yp xp - atan2 yq xq)) = 0) by nra.
    destruct (sin_zero_range _ W Z) as [D|D]; [|rewrite D in C; nra].
    revert D. unfold wrap. destruct (ltb _ (- PI)) eqn:L1; bools.
    + destruct (ltb PI _) eqn:L2; bools; lra.
    + destruct (ltb PI _) eqn:L2; bools; lra.
Qed.

(** ** Sides of lines *)
Lemma pt_ne (p q : pt) : p <> q -> fst q - fst p <> 0 \/ snd q - snd p <> 0.
Proof.
  destruct p as [x y], q as [x' y']. cbn [fst snd]. intro N. destruct (Req_dec x' x) as [->|H]; [|left; lra]. destruct (Req_dec y' y) as [->|H]; [congruence|right; lra].
Qed.
Lemma pt_dec (p q : pt) : {p = q} + {p <> q}.
Proof. destruct p as [x y], q as [x' y']. destruct (Req_EM_T x x') as [->|H]; [destruct (Req_EM_T y y') as [->|H]; [now left|]|]; right; intro E; injection E; auto. Qed.
Lemma cross_aa a c : cross a c a = 0. Proof. unfold cross. ring. Qed.
Lemma cross_bb a c : cross a c c = 0. Proof. unfold cross. ring. Qed.
Lemma cross_rot a b c : cross b c a = cross a b c. Proof. unfold cross. ring. Qed.
Lemma cross_swap a b c : cross b a c = - cross a b c. Proof. unfold cross. ring. Qed.
Lemma cross_last a b c : cross a c b = - cross a b c. Proof. unfold cross. ring. Qed.
Lemma cross_area a b c x : cross a b x = cross a b c + cross c b x + cross a c x.
Proof. unfold cross. ring. Qed.
Lemma cross_ne a b c : cross a b c <> 0 -> a <> b /\ b <> c /\ a <> c.
Proof. intro H. repeat split; intros ->; apply H; unfold cross; ring. Qed.
Lemma sq_pos x y : x <> 0 \/ y <> 0 -> 0 < x * x + y * y.
Proof. intros [H|H]; apply Rsqr_pos_lt in H; unfold Rsqr in H; nra. Qed.

Lemma place_meaning a b c x : 0 < cross a b c -> x = a \/ x = b \/ 0 < cross a b x -> cross a b x <= cross a b c ->
  match place_of a b c x with
  | InLeft => x = a \/ 0 < cross a c x
  | InRight => 0 < cross c b x
  | Nowhere => cross a c x <= 0 /\ cross c b x <= 0
  end.
Proof.
  intros D X F. pose proof (cross_area a b c x) as AR. destruct (cross_ne a b c) as (Nab & Nbc & Nac); [lra|].
  assert (L : x = a \/ cross a c x = 0 \/ cross a c x <> 0) by tauto.
  unfold place_of. destruct (eqb (slope a c) (slope a x)) eqn:E1; bools.
  - destruct (pt_dec x a) as [->|N].
    + pose proof (cross_aa a b). pose proof (cross_aa a c). lra.
    + unfold slope in E1. apply same_angle_iff in E1; [|now apply pt_ne|apply pt_ne; congruence]. destruct E1 as [Z _].
      replace (_ - _) with (cross a c x) in Z by (unfold cross; ring). lra.
  - assert (Nxc : x <> c) by (intros ->; congruence).
    assert (Sac : x <> a -> (wrap (slope a c - slope a x) < 0 <-> 0 < cross a c x)).
    { intro N. unfold slope. replace (cross a c x) with ((fst c - fst a) * (snd x - snd a) - (snd c - snd a) * (fst x - fst a)) by (unfold cross; ring).
      apply wrap_sign; [now apply pt_ne|apply pt_ne; congruence|]. intro Z. destruct X as [->|[->|X]]; [congruence| |].
      - exfalso. assert (cross a c b = 0) by (unfold cross; lra). rewrite cross_last in H. lra.
      - assert (I1 : cross a b c * (fst x - fst a) = cross a b x * (fst c - fst a) - cross a c x * (fst b - fst a)) by (unfold cross; ring).
        assert (I2 : cross a b c * (snd x - snd a) = cross a b x * (snd c - snd a) - cross a c x * (snd b - snd a)) by (unfold cross; ring).
        assert (Z' : cross a c x = 0) by (unfold cross; lra). rewrite Z' in I1, I2.
        assert (Q := sq_pos _ _ (pt_ne _ _ Nac)).
        assert (I3 : cross a b c * ((fst c - fst a) * (fst x - fst a) + (snd c - snd a) * (snd x - snd a)) = cross a b x * ((fst c - fst a) * (fst c - fst a) + (snd c - snd a) * (snd c - snd a))).
        { rewrite Rmult_plus_distr_l. replace (cross a b c * ((fst c - fst a) * (fst x - fst a))) with ((fst c - fst a) * (cross a b c * (fst x - fst a))) by ring.
          replace (cross a b c * ((snd c - snd a) * (snd x - snd a))) with ((snd c - snd a) * (cross a b c * (snd x - snd a))) by ring. rewrite I1, I2. ring. }
        apply Rmult_lt_reg_l with (cross a b c); [exact D|]. rewrite Rmult_0_r, I3. apply Rmult_lt_0_compat; assumption. }
    destruct (ltb (wrap (slope a c - slope a x)) 0) eqn:E2; bools.
    + destruct (pt_dec x a) as [->|N]; [now left|]. right. now apply Sac.
    + assert (A0 : cross a c x <= 0).
      { destruct (pt_dec x a) as [->|N]; [rewrite cross_aa; lra|]. destruct (Rle_dec (cross a c x) 0); [assumption|]. exfalso. assert (wrap (slope a c - slope a x) < 0) by (apply (Sac N); lra). lra. }
      destruct (eqb (slope c x) (slope c b)) eqn:E3; bools.
      * unfold slope in E3. apply same_angle_iff in E3; [|apply pt_ne; congruence|apply pt_ne; congruence]. destruct E3 as [Z _].
        assert (cross c b x = 0) by (unfold cross; lra). lra.
      * assert (Scb : 0 < wrap (slope c x - slope c b) <-> 0 < cross c b x).
        { assert (W : 0 < wrap (slope c x - slope c b) <-> (fst x - fst c) * (snd b - snd c) - (snd x - snd c) * (fst b - fst c) < 0).
          { unfold slope. apply wrap_sign; [apply pt_ne; congruence|apply pt_ne; congruence|]. intro Z.
            assert (Z' : cross c b x = 0) by (unfold cross; lra).
            assert (I1 : cross a b c * (fst x - fst c) = cross c b x * (fst b - fst a) + (cross a b c - cross a b x) * (fst b - fst c)) by (unfold cross; ring).
            assert (I2 : cross a b c * (snd x - snd c) = cross c b x * (snd b - snd a) + (cross a b c - cross a b x) * (snd b - snd c)) by (unfold cross; ring).
            rewrite Z' in I1, I2. assert (Q := sq_pos _ _ (pt_ne c b ltac:(congruence))).
            assert (I3 : cross a b c * ((fst x - fst c) * (fst b - fst c) + (snd x - snd c) * (snd b - snd c)) = (cross a b c - cross a b x) * ((fst b - fst c) * (fst b - fst c) + (snd b - snd c) * (snd b - snd c))).
            { rewrite Rmult_plus_distr_l. rewrite <- !Rmult_assoc. rewrite I1, I2. ring. }
            apply Rmult_lt_reg_l with (cross a b c); [exact D|]. rewrite Rmult_0_r, I3. apply Rmult_lt_0_compat; [|exact Q].
            destruct F as [F|F]; [lra|]. exfalso. rewrite F in I1, I2. destruct (pt_ne c x ltac:(congruence)) as [K|K]; apply K; apply Rmult_eq_reg_l with (cross a b c); lra. }
          rewrite W. split; intro; unfold cross in *; lra. }
        destruct (ltb 0 (wrap (slope c x - slope c b))) eqn:E4; bools; [now apply Scb|]. split; [exact A0|].
        destruct (Rle_dec (cross c b x) 0); [assumption|]. exfalso. assert (0 < wrap (slope c x - slope c b)) by (apply Scb; lra). lra.
Qed.

(** ** The farthest point *)
Lemma distance_is a b x : distance a b x = Rabs (cross a b x) / sqrt ((snd b - snd a) ^ 2 + (fst b - fst a) ^ 2).
Proof. unfold distance. f_equal. rewrite <- (Rabs_Ropp (cross a b x)). f_equal. unfold cross. ring. Qed.
Lemma base_pos a b : a <> b -> 0 < sqrt ((snd b - snd a) ^ 2 + (fst b - fst a) ^ 2).
Proof. intro N. apply sqrt_lt_R0. pose proof (sq_pos _ _ (pt_ne _ _ N)). lra. Qed.
Lemma distance_nonneg a b x : a <> b -> 0 <= distance a b x.
Proof. intro N. rewrite distance_is. apply Rmult_le_pos; [apply Rabs_pos|]. left. apply Rinv_0_lt_compat, base_pos, N. Qed.
Lemma distance_le a b x y : a <> b -> 0 <= cross a b x -> 0 <= cross a b y -> distance a b x <= distance a b y -> cross a b x <= cross a b y.
Proof.
  intros N X Y. rewrite !distance_is, !Rabs_right by lra. pose proof (base_pos a b N) as P. intro H.
  apply Rmult_le_reg_r with (/ sqrt ((snd b - snd a) ^ 2 + (fst b - fst a) ^ 2)); [now apply Rinv_0_lt_compat|exact H].
Qed.
Lemma distance_zero a b x : a <> b -> 0 <= cross a b x -> distance a b x <= 0 -> cross a b x = 0.
Proof.
  intros N X H. assert (Z : distance a b a = 0). { rewrite distance_is, cross_aa, Rabs_R0. unfold Rdiv. ring. }
  assert (cross a b x <= cross a b a); [|rewrite cross_aa in *; lra]. apply distance_le; auto; [rewrite cross_aa; lra|lra].
Qed.
Lemma farthest_from ps a b idxp m0 :
  let m := fold_left (fun m i => let d := distance a b (at_ ps i) in if ltb (snd m) d then (Some i, d) else m) idxp m0 in
  snd m0 <= snd m /\ (forall i, In i idxp -> distance a b (at_ ps i) <= snd m) /\
  (m = m0 \/ exists c, In c idxp /\ m = (Some c, distance a b (at_ ps c))).
Proof.
  revert m0. induction idxp as [|i r IH]; intro m0; cbn [fold_left].
  - cbn zeta. split; [lra|]. split; [intros ? []|now left].
  - cbn zeta in IH |- *. destruct (ltb (snd m0) (distance a b (at_ ps i))) eqn:E; bools.
    + destruct (IH (Some i, distance a b (at_ ps i))) as (A & B & C). cbn [snd] in A. split; [lra|]. split.
      * intros j [<-|H]; [lra|auto].
      * right. destruct C as [C|(c & H & C)]; [exists i|exists c]; rewrite C; split; cbn [In]; auto.
    + destruct (IH m0) as (A & B & C). split; [lra|]. split.
      * intros j [<-|H]; [lra|auto].
      * destruct C as [C|(c & H & C)]; [now left|]. right. exists c. split; [now right|auto].
Qed.
Lemma farthest_is ps a b idxp : a <> b -> idxp <> [] ->
  exists c, In c idxp /\ farthest ps a b idxp = (Some c, distance a b (at_ ps c)) /\ forall i, In i idxp -> distance a b (at_ ps i) <= distance a b (at_ ps c).
Proof.
  intros N E. destruct (farthest_from ps a b idxp (None, -1)) as (_ & B & C). fold (farthest ps a b idxp) in B, C. destruct C as [C|(c & H & C)].
  - exfalso. destruct idxp as [|i r]; [congruence|]. specialize (B i (or_introl eq_refl)). rewrite C in B. cbn [snd] in B. pose proof (distance_nonneg a b (at_ ps i) N). lra.
  - exists c. rewrite C in *. cbn [snd] in B. auto.
Qed.

(** ** Chains *)
Definition pairs (l : list pt) : list (pt * pt) := combine l (tl l).
Lemma pairs_cons p q l : pairs (p :: q :: l) = (p, q) :: pairs (q :: l).
Proof. reflexivity. Qed.
Lemma pairs_mid l1 c l2 uv : In uv (pairs (l1 ++ c :: l2)) <-> In uv (pairs (l1 ++ [c])) \/ In uv (pairs (c :: l2)).
Proof.
  induction l1 as [|p l1 IH].
  - cbn [app]. split; [now right|]. intros [[]|H]; exact H.
  - destruct l1 as [|q l1].
    + cbn [app]. rewrite pairs_cons. cbn [In pairs combine tl]. tauto.
    + cbn [app] in *. rewrite !pairs_cons. cbn [In]. rewrite IH. tauto.
Qed.

Lemma filter_length_le {A} (f : A -> bool) l : (List.length (filter f l) <= List.length l)%nat.
Proof. induction l as [|x l IH]; cbn [filter List.length]; [lia|]. destruct (f x); cbn [List.length]; lia. Qed.
Lemma NoDup_join {A} (l1 l2 : list A) : NoDup l1 -> NoDup l2 -> (forall x, In x l1 -> ~ In x l2) -> NoDup (l1 ++ l2).
Proof.
  induction l1 as [|x l1 IH]; cbn [app]; intros N1 N2 H; [exact N2|]. inversion N1; subst. constructor.
  - rewrite in_app_iff. intros [K|K]; [tauto|]. apply (H x (or_introl eq_refl) K).
  - apply IH; auto. intros y Hy. apply H. now right.
Qed.

Section Chain.
  Variable ps : list pt.
  Local Notation P := (at_ ps).
  Definition path (b : nat) (r : list nat) (a : nat) : list (pt * pt) := pairs (P b :: map P r ++ [P a]).
  Record chain (idxp : list nat) (a b : nat) (r : list nat) : Prop := {
    ch_in : forall i, In i r -> In i idxp;
    ch_nodup : NoDup (map P r);
    ch_left : forall i, In i r -> 0 < cross (P a) (P b) (P i);
    ch_edge : forall u v, In (u, v) (path b r a) -> u <> v /\ 0 <= cross u v (P a) /\ 0 <= cross u v (P b) /\ forall i, In i idxp -> 0 <= cross u v (P i);
    ch_mono : forall w, along w (P b) <= along w (P a) -> (forall i, In i idxp -> along w (P b) <= along w (P i) <= along w (P a)) ->
      forall u v, In (u, v) (path b r a) -> along w u <= along w v
  }.
  Lemma path_mid b r c l a uv : In uv (path b (r ++ c :: l) a) <-> In uv (path b r c) \/ In uv (path c l a).
  Proof.
    unfold path. rewrite map_app. cbn [map]. rewrite <- app_assoc. cbn [app]. rewrite app_comm_cons. apply (pairs_mid (P b :: map P r)).
  Qed.
  Lemma empty_chain idxp a b : P a <> P b -> (forall i, In i idxp -> P i = P a \/ P i = P b) -> chain idxp a b [].
  Proof.
    intros N H. constructor.
    - intros ? [].
    - constructor.
    - intros ? [].
    - intros u v [E|[]]. injection E as <- <-. split; [congruence|]. rewrite cross_aa, cross_bb. split; [lra|]. split; [lra|].
      intros i I0. destruct (H i I0) as [->| ->]; rewrite ?cross_aa, ?cross_bb; lra.
    - intros w W _ u v [E|[]]. injection E as <- <-. exact W.
  Qed.

  Lemma findhull_chain fuel : forall idxp a b, (List.length idxp <= fuel)%nat -> NoDup idxp -> P a <> P b ->
    (forall i, In i idxp -> P i = P a \/ P i = P b \/ 0 < cross (P a) (P b) (P i)) ->
    exists r, findhull fuel ps idxp a b = Ok r /\ chain idxp a b r.
  Proof.
    induction fuel as [|fuel IH]; intros idxp a b L ND N H.
    { destruct idxp; [|cbn in L; lia]. exists []. split; [reflexivity|]. apply empty_chain; [exact N|intros ? []]. }
    destruct idxp as [|i0 idx0] eqn:EI; [exists []; split; [reflexivity|]; apply empty_chain; [exact N|intros ? []]|].
    cbn [findhull]. rewrite <- EI in *. destruct (farthest_is ps (P a) (P b) idxp N) as (c & Hc & EF & Far); [congruence|]. rewrite EF. clear EI i0 idx0.
    assert (NN : forall i, In i idxp -> 0 <= cross (P a) (P b) (P i)).
    { intros i Hi. destruct (H i Hi) as [->|[->|X]]; rewrite ?cross_aa, ?cross_bb; lra. }
    destruct (GeomModel.leb (distance (P a) (P b) (P c)) 0) eqn:E0.
    - exists []. split; [reflexivity|]. apply empty_chain; [exact N|]. intros i Hi. unfold GeomModel.leb in E0. destruct (Rle_dec _ 0) as [E1|]; [|discriminate].
      destruct (H i Hi) as [X|[X|X]]; auto. rewrite (distance_zero (P a) (P b) (P i)) in X; auto; [lra|]. specialize (Far i Hi). lra.
    - unfold GeomModel.leb in E0. destruct (Rle_dec _ 0) as [|E1]; [discriminate|]. clear E0.
      assert (F : forall i, In i idxp -> cross (P a) (P b) (P i) <= cross (P a) (P b) (P c)) by (intros; apply distance_le; auto).
      assert (D : 0 < cross (P a) (P b) (P c)).
      { destruct (NN c Hc) as [X|X]; [exact X|]. exfalso. apply E1. rewrite distance_is, <- X, Rabs_R0. unfold Rdiv. lra. }
      set (others := filter (fun i => negb (Nat.eqb i c)) idxp).
      set (goes := fun w => filter (fun i => placed (place_of (P a) (P b) (P c) (P i)) w) others).
      assert (InO : forall i, In i others <-> In i idxp /\ i <> c).
      { intro i. unfold others. rewrite filter_In. rewrite negb_true_iff, Nat.eqb_neq. tauto. }
      assert (InG : forall w i, In i (goes w) <-> In i idxp /\ i <> c /\ place_of (P a) (P b) (P c) (P i) = w).
      { intros w i. unfold goes. rewrite filter_In, InO. destruct (place_of (P a) (P b) (P c) (P i)), w; cbn; intuition congruence. }
      assert (LO : (List.length others < List.length idxp)%nat).
      { unfold others. clear - Hc. induction idxp as [|j r IHr]; [destruct Hc|]. cbn [filter]. destruct (Nat.eqb_spec j c) as [->|Q]; cbn [negb].
        - cbn [List.length]. pose proof (filter_length_le (fun i => negb (Nat.eqb i c)) r). lia.
        - destruct Hc as [->|Hc]; [congruence|]. cbn [List.length]. specialize (IHr Hc). lia. }
      assert (LG : forall w, (List.length (goes w) <= fuel)%nat).
      { intro w. pose proof (filter_length_le (fun i => placed (place_of (P a) (P b) (P c) (P i)) w) others) as Q. unfold goes. lia. }
      assert (NG : forall w, NoDup (goes w)) by (intro; apply NoDup_filter, NoDup_filter, ND).
      destruct (cross_ne (P a) (P b) (P c)) as (_ & Nbc & Nac); [lra|].
      assert (PM : forall i, In i idxp -> i <> c -> match place_of (P a) (P b) (P c) (P i) with
        | InLeft => P i = P a \/ 0 < cross (P a) (P c) (P i) | InRight => 0 < cross (P c) (P b) (P i)
        | Nowhere => cross (P a) (P c) (P i) <= 0 /\ cross (P c) (P b) (P i) <= 0 end).
      { intros i Hi _. apply place_meaning; auto. }
      destruct (IH (goes InRight) c b (LG _) (NG _)) as (r & ER & CR); [congruence| |].
      { intros i Hi. apply InG in Hi. destruct Hi as (A & B & E). specialize (PM i A B). rewrite E in PM. auto. }
      destruct (IH (goes InLeft) a c (LG _) (NG _)) as (l & EL & CL); [congruence| |].
      { intros i Hi. apply InG in Hi. destruct Hi as (A & B & E). specialize (PM i A B). rewrite E in PM. tauto. }
      exists (r ++ c :: l). change ((do r0 <- findhull fuel ps (goes InRight) c b; do l0 <- findhull fuel ps (goes InLeft) a c; Ok (r0 ++ c :: l0)) = Ok (r ++ c :: l) /\ chain idxp a b (r ++ c :: l)).
      rewrite ER. cbn [bind]. rewrite EL. cbn [bind]. split; [reflexivity|].
      destruct CR as [R1 R2 R3 R4 R5], CL as [L1 L2 L3 L4 L5]. constructor.
      + intros i Hi. apply in_app_or in Hi. destruct Hi as [Hi|[<-|Hi]]; [apply R1, InG in Hi; tauto|exact Hc|apply L1, InG in Hi; tauto].
      + rewrite map_app. cbn [map]. apply NoDup_join; [exact R2|constructor; [|exact L2]|].
        * intro Hi. apply in_map_iff in Hi. destruct Hi as (i & E & Hi). apply L3 in Hi. rewrite E, cross_bb in Hi. lra.
        * intros x Hi [<-|Hj]; apply in_map_iff in Hi; destruct Hi as (i & E & Hi); pose proof (R3 i Hi) as X; [rewrite E, cross_aa in X; lra|].
          apply in_map_iff in Hj. destruct Hj as (j & E' & Hj). apply L3 in Hj. apply R1, InG in Hi. pose proof (F i (proj1 Hi)) as Fi.
          rewrite (cross_area (P a) (P b) (P c) (P i)) in Fi. rewrite E in *. rewrite E' in Hj. lra.
      + intros i Hi. apply in_app_or in Hi. destruct Hi as [Hi|[<-|Hi]]; [|exact D|].
        * pose proof (R3 i Hi) as X. apply R1, InG in Hi. destruct (H i (proj1 Hi)) as [Q|[Q|Q]]; [| |exact Q]; rewrite Q in X; [rewrite cross_swap, cross_rot in X|rewrite cross_bb in X]; lra.
        * pose proof (L3 i Hi) as X. apply L1, InG in Hi. destruct (H i (proj1 Hi)) as [Q|[Q|Q]]; [| |exact Q]; rewrite Q in X; [rewrite cross_aa in X|rewrite cross_last in X]; lra.
      + intros u v Huv. apply path_mid in Huv.
        set (w := (- (snd (P b) - snd (P a)), fst (P b) - fst (P a))).
        assert (AW : forall y, along w y = cross (P a) (P b) y + along w (P a)) by (intro y; unfold w, along, cross; cbn [fst snd]; ring).
        destruct Huv as [Huv|Huv].
        * destruct (R4 u v Huv) as (Nuv & UC & UB & UI). split; [exact Nuv|].
          assert (M : cross (P a) (P b) u <= cross (P a) (P b) v).
          { assert (M : along w u <= along w v); [|rewrite (AW u), (AW v) in M; lra]. apply R5; [| |exact Huv].
            - rewrite (AW (P b)), (AW (P c)), cross_bb. lra.
            - intros i Hi. apply InG in Hi. rewrite (AW (P b)), (AW (P c)), (AW (P i)), cross_bb. pose proof (NN i (proj1 Hi)). pose proof (F i (proj1 Hi)). lra. }
          assert (UA : 0 <= cross u v (P a)).
          { replace (cross u v (P a)) with (cross u v (P b) + (cross (P a) (P b) v - cross (P a) (P b) u)) by (unfold cross; ring). lra. }
          split; [exact UA|]. split; [exact UB|]. intros i Hi. destruct (Nat.eq_dec i c) as [->|Nic]; [exact UC|].
          specialize (PM i Hi Nic). destruct (place_of (P a) (P b) (P c) (P i)) eqn:E.
          -- destruct PM as [->|PM]; [exact UA|]. apply Rmult_le_reg_l with (cross (P a) (P b) (P c)); [exact D|]. rewrite Rmult_0_r.
             replace (cross (P a) (P b) (P c) * cross u v (P i)) with
               (cross (P a) (P b) (P i) * cross u v (P c) + (cross (P a) (P b) (P c) - cross (P a) (P b) (P i)) * cross u v (P a)
                + cross (P a) (P c) (P i) * (cross (P a) (P b) v - cross (P a) (P b) u)) by (unfold cross; ring).
             pose proof (NN i Hi). pose proof (F i Hi). repeat apply Rplus_le_le_0_compat; apply Rmult_le_pos; lra.
          -- apply UI, InG. auto.
          -- destruct PM as [PM1 PM2]. apply Rmult_le_reg_l with (cross (P a) (P b) (P c)); [exact D|]. rewrite Rmult_0_r.
             replace (cross (P a) (P b) (P c) * cross u v (P i)) with
               (cross (P a) (P b) (P i) * cross u v (P c) + (- cross (P a) (P c) (P i)) * cross u v (P b) + (- cross (P c) (P b) (P i)) * cross u v (P a)) by (unfold cross; ring).
             pose proof (NN i Hi). repeat apply Rplus_le_le_0_compat; apply Rmult_le_pos; lra.
        * destruct (L4 u v Huv) as (Nuv & UA & UC & UI). split; [exact Nuv|].
          assert (M : cross (P a) (P b) v <= cross (P a) (P b) u).
          { assert (M : along (- fst w, - snd w) u <= along (- fst w, - snd w) v).
            2: { assert (AN : forall y, along (- fst w, - snd w) y = - along w y) by (intro; unfold along; cbn [fst snd]; ring). rewrite !AN, (AW u), (AW v) in M. lra. }
            assert (AN : forall y, along (- fst w, - snd w) y = - along w y) by (intro; unfold along; cbn [fst snd]; ring).
            apply L5; [| |exact Huv].
            - rewrite !AN, (AW (P c)). lra.
            - intros i Hi. apply InG in Hi. rewrite !AN, (AW (P c)), (AW (P i)). pose proof (NN i (proj1 Hi)). pose proof (F i (proj1 Hi)). lra. }
          assert (UB : 0 <= cross u v (P b)).
          { replace (cross u v (P b)) with (cross u v (P a) - (cross (P a) (P b) v - cross (P a) (P b) u)) by (unfold cross; ring). lra. }
          split; [exact UA|]. split; [exact UB|]. intros i Hi. destruct (Nat.eq_dec i c) as [->|Nic]; [exact UC|].
          specialize (PM i Hi Nic). destruct (place_of (P a) (P b) (P c) (P i)) eqn:E.
          -- apply UI, InG. auto.
          -- apply Rmult_le_reg_l with (cross (P a) (P b) (P c)); [exact D|]. rewrite Rmult_0_r.
             replace (cross (P a) (P b) (P c) * cross u v (P i)) with
               (cross (P a) (P b) (P i) * cross u v (P c) + (cross (P a) (P b) (P c) - cross (P a) (P b) (P i)) * cross u v (P b)
                + cross (P c) (P b) (P i) * (cross (P a) (P b) u - cross (P a) (P b) v)) by (unfold cross; ring).
             pose proof (NN i Hi). pose proof (F i Hi). repeat apply Rplus_le_le_0_compat; apply Rmult_le_pos; lra.
          -- destruct PM as [PM1 PM2]. apply Rmult_le_reg_l with (cross (P a) (P b) (P c)); [exact D|]. rewrite Rmult_0_r.
             replace (cross (P a) (P b) (P c) * cross u v (P i)) with
               (cross (P a) (P b) (P i) * cross u v (P c) + (- cross (P a) (P c) (P i)) * cross u v (P b) + (- cross (P c) (P b) (P i)) * cross u v (P a)) by (unfold cross; ring).
             pose proof (NN i Hi). repeat apply Rplus_le_le_0_compat; apply Rmult_le_pos; lra.
      + intros w W WI u v Huv. apply path_mid in Huv. destruct (WI c Hc) as [WB WA]. destruct Huv as [Huv|Huv].
        * apply R5; [exact WB| |exact Huv]. intros i Hi. apply InG in Hi. destruct Hi as (Hi & Nic & E). split; [apply (WI i Hi)|].
          specialize (PM i Hi Nic). rewrite E in PM.
          assert (X : cross (P a) (P b) (P c) * (along w (P i) - along w (P c)) = cross (P c) (P b) (P i) * (along w (P b) - along w (P a)) + (cross (P a) (P b) (P c) - cross (P a) (P b) (P i)) * (along w (P b) - along w (P c))) by (unfold along, cross; ring).
          pose proof (F i Hi) as Fi. assert (Y1 : cross (P c) (P b) (P i) * (along w (P b) - along w (P a)) <= 0) by nra.
          assert (Y2 : (cross (P a) (P b) (P c) - cross (P a) (P b) (P i)) * (along w (P b) - along w (P c)) <= 0) by nra. nra.
        * apply L5; [exact WA| |exact Huv]. intros i Hi. apply InG in Hi. destruct Hi as (Hi & Nic & E). split; [|apply (WI i Hi)].
          specialize (PM i Hi Nic). rewrite E in PM. destruct PM as [->|PM]; [exact WA|].
          assert (X : cross (P a) (P b) (P c) * (along w (P i) - along w (P c)) = cross (P a) (P c) (P i) * (along w (P a) - along w (P b)) + (cross (P a) (P b) (P c) - cross (P a) (P b) (P i)) * (along w (P a) - along w (P c))) by (unfold along, cross; ring).
          pose proof (F i Hi) as Fi. assert (Y1 : 0 <= cross (P a) (P c) (P i) * (along w (P a) - along w (P b))) by nra.
          assert (Y2 : 0 <= (cross (P a) (P b) (P c) - cross (P a) (P b) (P i)) * (along w (P a) - along w (P c))) by nra. nra.
  Qed.
End Chain.

(** ** Leaving out the corners on straight lines *)
Lemma pairs_nth (l : list pt) : forall i d, (S i < List.length l)%nat -> In (nth i l d, nth (S i) l d) (pairs l).
Proof.
  induction l as [|p l IH]; intros i d H; [cbn in H; lia|]. destruct l as [|q l]; [cbn in H; lia|]. rewrite pairs_cons.
  destruct i as [|i]; [now left|]. right. apply (IH i d). cbn [List.length] in *. lia.
Qed.
Lemma sides_nth l u v : In (u, v) (sides l) -> exists j, (j < List.length l)%nat /\ u = nth j l (0, 0) /\ v = nth ((j + 1) mod List.length l) l (0, 0).
Proof.
  destruct l as [|p r]; [intros []|]. unfold sides. intro H. apply (In_nth _ _ ((0, 0), (0, 0))) in H. destruct H as (j & L & E).
  rewrite combine_length, app_length in L. cbn [List.length] in L. rewrite combine_nth in E by (rewrite app_length; cbn [List.length]; rewrite Nat.add_1_r; reflexivity).
  injection E as <- <-. exists j. split; [cbn [List.length]; lia|]. split; [reflexivity|]. cbn [List.length].
  destruct (Nat.eq_dec j (List.length r)) as [->|N].
  - rewrite app_nth2, Nat.sub_diag by lia. replace (List.length r + 1)%nat with (S (List.length r)) by lia. rewrite Nat.mod_same by lia. reflexivity.
  - rewrite app_nth1 by lia. rewrite Nat.mod_small by lia. rewrite Nat.add_1_r. reflexivity.
Qed.
Lemma sides_of l j : (j < List.length l)%nat -> In (nth j l (0, 0), nth ((j + 1) mod List.length l) l (0, 0)) (sides l).
Proof.
  destruct l as [|p r]; [cbn [List.length]; lia|]. intro L. unfold sides.
  assert (LE : List.length (p :: r) = List.length (r ++ [p])) by (rewrite app_length; cbn [List.length]; rewrite Nat.add_1_r; reflexivity).
  assert (E : nth j (combine (p :: r) (r ++ [p])) ((0, 0), (0, 0)) = (nth j (p :: r) (0, 0), nth ((j + 1) mod List.length (p :: r)) (p :: r) (0, 0))).
  { rewrite combine_nth by exact LE. f_equal. cbn [List.length] in L |- *. destruct (Nat.eq_dec j (List.length r)) as [->|N].
    - rewrite app_nth2, Nat.sub_diag by lia. replace (List.length r + 1)%nat with (S (List.length r)) by lia. rewrite Nat.mod_same by lia. reflexivity.
    - rewrite app_nth1 by lia. rewrite Nat.mod_small by lia. rewrite Nat.add_1_r. reflexivity. }
  rewrite <- E. apply nth_In. rewrite combine_length, Nat.min_l; [exact L|apply Nat.eq_le_incl; exact LE].
Qed.
Lemma on_line u v (pts : list pt) : u <> v -> (forall x, In x pts -> cross u v x = 0) -> on_a_line pts.
Proof.
  intros N H p q r Hp Hq Hr. set (d := fun y : pt => (fst v - fst u) * (fst y - fst u) + (snd v - snd u) * (snd y - snd u)).
  assert (I0 : ((fst v - fst u) * (fst v - fst u) + (snd v - snd u) * (snd v - snd u)) * cross p q r =
    (d q - d p) * (cross u v r - cross u v p) - (cross u v q - cross u v p) * (d r - d p)) by (unfold d, cross; ring).
  rewrite (H p Hp), (H q Hq), (H r Hr) in I0. pose proof (sq_pos _ _ (pt_ne _ _ N)). nra.
Qed.
Lemma collinear3_is p q r : collinear3 p q r = true <-> cross p q r = 0.
Proof.
  unfold collinear3. split; intro H; bools.
  - unfold cross. lra.
  - unfold cross in H. match goal with |- eqb ?x ?y = true => replace y with x by lra end. apply eqb_r.
Qed.

Section Optimize.
  Variables (ps : list pt) (hull : list nat).
  Local Notation P := (at_ ps).
  Let l := List.length hull.
  Let h (n : nat) : pt := P (hull_at hull n).
  Hypothesis size : (2 <= l)%nat.
  Hypothesis range : forall i, In i hull -> (i < List.length ps)%nat.
  Hypothesis distinct : NoDup (map P hull).
  Hypothesis convex : forall u v, In (u, v) (pairs (map P hull ++ [h 0])) -> u <> v /\ forall x, In x ps -> 0 <= cross u v x.
  Hypothesis planar : ~ on_a_line ps.

  Lemma h_period n : h (n + l) = h n.
  Proof. unfold h, hull_at. fold l. replace (n + l)%nat with (n + 1 * l)%nat by lia. rewrite Nat.mod_add by lia. reflexivity. Qed.
  Lemma h_pair n : In (h n, h (n + 1)) (pairs (map P hull ++ [h 0])).
  Proof.
    assert (M : (n mod l < l)%nat) by (apply Nat.mod_upper_bound; lia).
    assert (LM : List.length (map P hull ++ [h 0]) = S l) by (rewrite app_length, map_length; cbn [List.length]; unfold l; lia).
    assert (A : nth (n mod l) (map P hull ++ [h 0]) (P 0%nat) = h n).
    { rewrite app_nth1 by (rewrite map_length; exact M). rewrite map_nth. reflexivity. }
    assert (B : nth (S (n mod l)) (map P hull ++ [h 0]) (P 0%nat) = h (n + 1)).
    { destruct (Nat.eq_dec (S (n mod l)) l) as [E|E].
      - rewrite E. rewrite app_nth2 by (rewrite map_length; unfold l; lia). rewrite map_length. unfold l at 1. rewrite Nat.sub_diag. cbn [nth].
        unfold h, hull_at. fold l. rewrite <- (Nat.add_mod_idemp_l n 1 l) by lia. replace (n mod l + 1)%nat with l by lia. rewrite Nat.mod_same, Nat.mod_0_l by lia. reflexivity.
      - rewrite app_nth1 by (rewrite map_length; fold l; lia). rewrite map_nth. unfold h, hull_at. fold l.
        rewrite <- (Nat.add_mod_idemp_l n 1 l) by lia. rewrite (Nat.mod_small (n mod l + 1)) by lia. rewrite Nat.add_1_r. reflexivity. }
    rewrite <- A, <- B. apply pairs_nth. lia.
  Qed.
  Lemma h_in n : In (h n) ps.
  Proof.
    unfold h, at_. apply nth_In. apply range. unfold hull_at. apply nth_In. apply Nat.mod_upper_bound. fold l. lia.
  Qed.
  Lemma h_edge n : h n <> h (n + 1) /\ forall x, In x ps -> 0 <= cross (h n) (h (n + 1)) x.
  Proof. apply convex, h_pair. Qed.

  (** [q - p] is a positive multiple of [s - r]. *)
  Definition along_with (p q r s : pt) : Prop := exists t, 0 < t /\ fst q - fst p = t * (fst s - fst r) /\ snd q - snd p = t * (snd s - snd r).
  Lemma straight n : cross (h n) (h (n + 1)) (h (n + 2)) = 0 -> along_with (h (n + 1)) (h (n + 2)) (h n) (h (n + 1)).
  Proof.
    intro Z. destruct (h_edge n) as [N1 L1]. destruct (h_edge (n + 1)) as [N2 L2]. replace (n + 1 + 1)%nat with (n + 2)%nat in * by lia.
    set (p := h n) in *. set (q := h (n + 1)) in *. set (r := h (n + 2)) in *. clearbody p q r.
    set (s := (fst q - fst p) * (fst q - fst p) + (snd q - snd p) * (snd q - snd p)).
    set (d := (fst q - fst p) * (fst r - fst q) + (snd q - snd p) * (snd r - snd q)).
    assert (S0 : 0 < s) by (apply sq_pos, pt_ne, N1).
    assert (Z' : (fst q - fst p) * (snd r - snd q) - (snd q - snd p) * (fst r - fst q) = 0) by (unfold cross in Z; lra).
    assert (X : s * (fst r - fst q) = d * (fst q - fst p)).
    { transitivity (d * (fst q - fst p) - (snd q - snd p) * ((fst q - fst p) * (snd r - snd q) - (snd q - snd p) * (fst r - fst q))); [unfold s, d; ring|rewrite Z'; ring]. }
    assert (Y : s * (snd r - snd q) = d * (snd q - snd p)).
    { transitivity (d * (snd q - snd p) + (fst q - fst p) * ((fst q - fst p) * (snd r - snd q) - (snd q - snd p) * (fst r - fst q))); [unfold s, d; ring|rewrite Z'; ring]. }
    assert (D : 0 < d).
    { destruct (Rtotal_order d 0) as [D|[D|D]]; [exfalso|exfalso|exact D].
      - apply planar. apply (on_line p q); [exact N1|]. intros x Hx. specialize (L1 x Hx). specialize (L2 x Hx).
        assert (E : s * cross q r x = d * cross p q x).
        { unfold cross. replace (s * ((fst r - fst q) * (snd x - snd q) - (snd r - snd q) * (fst x - fst q))) with ((s * (fst r - fst q)) * (snd x - snd q) - (s * (snd r - snd q)) * (fst x - fst q)) by ring. rewrite X, Y. ring. }
        nra.
      - rewrite D in X, Y. destruct (pt_ne _ _ N2) as [K|K]; apply K; nra. }
    exists (d / s). split; [apply Rdiv_lt_0_compat; assumption|]. split; apply Rmult_eq_reg_l with s; try lra; [rewrite X|rewrite Y]; field; lra.
  Qed.
  Lemma run n : forall p, (forall m, (p < m < p + S n)%nat -> cross (h (m - 1)) (h m) (h (m + 1)) = 0) ->
    along_with (h p) (h (p + S n)) (h p) (h (p + 1)) /\ along_with (h (p + n)) (h (p + S n)) (h p) (h (p + 1)).
  Proof.
    induction n as [|n IH]; intros p H.
    - replace (p + 0)%nat with p by lia. split; exists 1; (split; [lra|split; ring]).
    - destruct (IH p) as [(s & S0 & SX & SY) (t & T0 & TX & TY)]; [intros m Hm; apply H; lia|].
      assert (Z : cross (h (p + n)) (h (p + n + 1)) (h (p + n + 2)) = 0).
      { specialize (H (p + n + 1)%nat ltac:(lia)). replace (p + n + 1 - 1)%nat with (p + n)%nat in H by lia. replace (p + n + 1 + 1)%nat with (p + n + 2)%nat in H by lia. exact H. }
      destruct (straight _ Z) as (r & R0 & RX & RY). replace (p + n + 1)%nat with (p + S n)%nat in * by lia. replace (p + n + 2)%nat with (p + S (S n))%nat in * by lia.
      rewrite TX in RX. rewrite TY in RY. split.
      + exists (s + r * t). split; [nra|]. split; [replace (fst (h (p + S (S n))) - fst (h p)) with ((fst (h (p + S (S n))) - fst (h (p + S n))) + (fst (h (p + S n)) - fst (h p))) by ring; rewrite RX, SX; ring|].
        replace (snd (h (p + S (S n))) - snd (h p)) with ((snd (h (p + S (S n))) - snd (h (p + S n))) + (snd (h (p + S n)) - snd (h p))) by ring. rewrite RY, SY. ring.
      + exists (r * t). split; [nra|]. rewrite RX, RY. split; ring.
  Qed.
  Definition flat (m : nat) : bool := collinear3 (h (m + l - 1)) (h m) (h (m + 1)).
  Lemma flat_is m : (0 < m)%nat -> flat m = true -> cross (h (m - 1)) (h m) (h (m + 1)) = 0.
  Proof. unfold flat. intros M H. apply collinear3_is in H. replace (m + l - 1)%nat with (m - 1 + l)%nat in H by lia. now rewrite h_period in H. Qed.
  Lemma flat_period m : flat (m + l) = flat m.
  Proof.
    unfold flat. replace (m + l + l - 1)%nat with (m + l - 1 + l)%nat by lia. replace (m + l + 1)%nat with (m + 1 + l)%nat by lia. now rewrite !h_period.
  Qed.
  (** The positions kept. *)
  Definition kept : list nat := filter (fun m => negb (flat m)) (seq 0 l).
  Lemma kept_some : kept <> [].
  Proof.
    intro E. assert (F : forall m, (m < l)%nat -> flat m = true).
    { intros m M. destruct (flat m) eqn:X; [reflexivity|]. exfalso. assert (I0 : In m kept) by (apply filter_In; rewrite X; split; [apply in_seq; lia|reflexivity]). rewrite E in I0. destruct I0. }
    destruct (run (l - 1) 0) as [(t & T0 & TX & TY) _].
    - intros m M. apply flat_is; [lia|]. apply F. lia.
    - replace (0 + S (l - 1))%nat with (0 + l)%nat in * by lia. rewrite h_period in TX, TY. destruct (h_edge 0) as [N _]. destruct (pt_ne _ _ N) as [K|K]; apply K; cbn [Nat.add] in *; nra.
  Qed.
  Lemma incr_filter (f : nat -> bool) n : forall a i j, (i < j < List.length (filter f (seq a n)))%nat -> (nth i (filter f (seq a n)) 0 < nth j (filter f (seq a n)) 0)%nat.
  Proof.
    induction n as [|n IH]; intros a i j H; [cbn in H; lia|]. cbn [seq filter] in *. destruct (f a); [|now apply IH].
    cbn [List.length] in H. destruct j as [|j]; [lia|]. destruct i as [|i]; cbn [nth]; [|apply IH; lia].
    assert (I0 : In (nth j (filter f (seq (S a) n)) 0%nat) (filter f (seq (S a) n))) by (apply nth_In; lia). apply filter_In in I0. destruct I0 as [I0 _]. apply in_seq in I0. lia.
  Qed.
  Lemma kept_nth i : (i < List.length kept)%nat -> (nth i kept 0 < l)%nat /\ flat (nth i kept 0%nat) = false.
  Proof. intro L. assert (I0 : In (nth i kept 0%nat) kept) by (now apply nth_In). apply filter_In in I0. destruct I0 as [A B]. apply in_seq in A. apply negb_true_iff in B. split; [lia|exact B]. Qed.
  Lemma next_kept j : (j < List.length kept)%nat -> exists n,
    h (nth j kept 0%nat + S n) = h (nth ((j + 1) mod List.length kept) kept 0%nat) /\
    h (nth j kept 0%nat + S n + 1) = h (nth ((j + 1) mod List.length kept) kept 0%nat + 1) /\
    flat (nth j kept 0%nat + S n) = false /\
    forall m, (nth j kept 0 < m < nth j kept 0 + S n)%nat -> flat m = true.
  Proof.
    intro L. set (k := List.length kept) in *. destruct (kept_nth j L) as [J1 J2]. set (p := nth j kept 0%nat) in *.
    assert (Miss : forall m, (m < l)%nat -> (forall i, (i < k)%nat -> nth i kept 0%nat <> m) -> flat m = true).
    { intros m M H. destruct (flat m) eqn:X; [reflexivity|]. exfalso. assert (I0 : In m kept) by (apply filter_In; rewrite X; split; [apply in_seq; lia|reflexivity]).
      apply (In_nth _ _ 0%nat) in I0. destruct I0 as (i & Li & E). apply (H i Li E). }
    assert (Inc : forall i i', (i < i' < k)%nat -> (nth i kept 0 < nth i' kept 0)%nat) by (intros i i' H; apply incr_filter; exact H).
    destruct (Nat.eq_dec (j + 1) k) as [E|E].
    - rewrite E, Nat.mod_same by lia. destruct (kept_nth 0) as [A B]; [fold k; lia|]. set (q := nth 0 kept 0%nat) in *.
      exists (q + l - p - 1)%nat. replace (p + S (q + l - p - 1))%nat with (q + l)%nat by lia. rewrite h_period. split; [reflexivity|].
      replace (q + l + 1)%nat with (q + 1 + l)%nat by lia. rewrite h_period. split; [reflexivity|]. rewrite flat_period. split; [exact B|].
      intros m M. destruct (le_lt_dec l m) as [G|G].
      + replace m with (m - l + l)%nat by lia. rewrite flat_period. apply Miss; [lia|]. intros i Hi. destruct i as [|i]; [fold q; lia|]. specialize (Inc 0%nat (S i) ltac:(lia)). fold q in Inc. lia.
      + apply Miss; [exact G|]. intros i Hi. destruct (Nat.eq_dec i j) as [->|Nij]; [fold p; lia|]. specialize (Inc i j ltac:(lia)). fold p in Inc. lia.
    - rewrite Nat.mod_small by lia. destruct (kept_nth (j + 1)) as [A B]; [fold k; lia|]. assert (PQ := Inc j (j + 1)%nat ltac:(lia)). fold p in PQ. set (q := nth (j + 1) kept 0%nat) in *.
      exists (q - p - 1)%nat. replace (p + S (q - p - 1))%nat with q by lia. split; [reflexivity|]. split; [reflexivity|]. split; [exact B|].
      intros m M. apply Miss; [lia|]. intros i Hi. destruct (Nat.lt_trichotomy i j) as [G|[->|G]].
      + specialize (Inc i j ltac:(lia)). fold p in Inc. lia.
      + fold p. lia.
      + destruct (Nat.eq_dec i (j + 1)) as [->|G']; [fold q; lia|]. specialize (Inc (j + 1)%nat i ltac:(lia)). fold q in Inc. lia.
  Qed.
  Definition K (j : nat) : pt := h (nth j kept 0%nat).
  Lemma kept_edge j : (j < List.length kept)%nat ->
    let p := nth j kept 0%nat in let q := ((j + 1) mod List.length kept)%nat in
    along_with (K j) (K q) (h p) (h (p + 1)) /\ exists m, h (m + 1) = K q /\ h (m + 2) = h (nth q kept 0%nat + 1) /\ along_with (K j) (K q) (h m) (h (m + 1)) /\ 0 < cross (h m) (h (m + 1)) (h (m + 2)).
  Proof.
    intros L p q. destruct (next_kept j L) as (n & E1 & E2 & F & G). fold p q in E1, E2, F, G.
    destruct (run n p) as [R1 R2]. { intros m M. apply flat_is; [lia|]. apply G, M. }
    unfold K. fold p. fold q. rewrite <- E1. split; [exact R1|]. exists (p + n)%nat. replace (p + n + 1)%nat with (p + S n)%nat by lia. replace (p + n + 2)%nat with (p + S n + 1)%nat by lia.
    split; [reflexivity|]. split; [exact E2|]. split.
    - destruct R1 as (s & S0 & SX & SY), R2 as (t & T0 & TX & TY). exists (s / t). split; [now apply Rdiv_lt_0_compat|].
      rewrite TX, TY, SX, SY. split; field; lra.
    - destruct (h_edge (p + n)) as [_ X]. replace (p + n + 1)%nat with (p + S n)%nat in X by lia.
      specialize (X (h (p + S n + 1)) (h_in _)). destruct X as [X|X]; [exact X|]. exfalso.
      assert (flat (p + S n) = true); [|congruence]. unfold flat. replace (p + S n + l - 1)%nat with (p + n + l)%nat by lia. rewrite h_period. apply collinear3_is. now rewrite <- X.
  Qed.
  Lemma along_cross p q r s x : along_with p q r s -> p = r \/ p = s -> exists t, 0 < t /\ cross p q x = t * cross r s x.
  Proof.
    intros (t & T0 & TX & TY) [->| ->]; exists t; (split; [exact T0|]); unfold cross; rewrite TX, TY; ring.
  Qed.
  Lemma K_sides j x : (j < List.length kept)%nat -> In x ps -> K j <> K ((j + 1) mod List.length kept) /\ 0 <= cross (K j) (K ((j + 1) mod List.length kept)) x.
  Proof.
    intros L Hx. destruct (kept_edge j L) as [A _]. set (p := nth j kept 0%nat) in *. destruct (h_edge p) as [N X]. split.
    - intro E. destruct A as (t & T0 & TX & TY). rewrite <- E in TX, TY. destruct (pt_ne _ _ N) as [Q|Q]; apply Q; nra.
    - destruct (along_cross _ _ _ _ x A) as (t & T0 & ->); [now left|]. specialize (X x Hx). nra.
  Qed.
  Lemma K_turn j : (j < List.length kept)%nat -> let k := List.length kept in
    0 < cross (K j) (K ((j + 1) mod k)) (K (((j + 1) mod k + 1) mod k)).
  Proof.
    intros L k. destruct (kept_edge j L) as [_ (m & E1 & E2 & A & C)]. fold k in E1, E2, A.
    assert (L2 : ((j + 1) mod k < k)%nat) by (apply Nat.mod_upper_bound; unfold k; lia).
    destruct (kept_edge ((j + 1) mod k) L2) as [B _]. fold k in B. set (q := ((j + 1) mod k)%nat) in *. fold (K q) in B. rewrite <- E2 in B. rewrite E1 in C, A.
    set (r := K ((q + 1) mod k)) in *. clearbody r. destruct A as (s & S0 & SX & SY), B as (t & T0 & TX & TY).
    assert (E : cross (K j) (K q) r = s * t * cross (h m) (K q) (h (m + 2))).
    { replace (cross (K j) (K q) r) with ((fst (K q) - fst (K j)) * (snd r - snd (K q)) - (snd (K q) - snd (K j)) * (fst r - fst (K q))) by (unfold cross; ring).
      rewrite SX, SY, TX, TY. unfold cross. ring. }
    rewrite E. apply Rmult_lt_0_compat; [apply Rmult_lt_0_compat; assumption|exact C].
  Qed.
  Lemma prev_of q k : (q < k)%nat -> exists j, (j < k)%nat /\ ((j + 1) mod k)%nat = q.
  Proof.
    intro L. destruct q as [|q]; [exists (k - 1)%nat|exists q]; (split; [lia|]).
    - replace (k - 1 + 1)%nat with k by lia. apply Nat.mod_same. lia.
    - rewrite Nat.mod_small by lia. lia.
  Qed.
  (** Every corner between its neighbours. *)
  Lemma K_corner q : (q < List.length kept)%nat -> exists u w, In u (map K (seq 0 (List.length kept))) /\ In w (map K (seq 0 (List.length kept))) /\
    0 < cross u (K q) w /\ forall x, In x ps -> 0 <= cross u (K q) x /\ 0 <= cross (K q) w x.
  Proof.
    intro L. set (k := List.length kept) in *. destruct (prev_of q k L) as (j & Lj & E). exists (K j), (K ((q + 1) mod k)).
    assert (L2 : ((q + 1) mod k < k)%nat) by (apply Nat.mod_upper_bound; lia).
    split; [apply in_map, in_seq; lia|]. split; [apply in_map, in_seq; lia|]. split.
    - pose proof (K_turn j Lj) as T0. fold k in T0. cbn zeta in T0. rewrite E in T0. exact T0.
    - intros x Hx. pose proof (K_sides j x Lj Hx) as A. pose proof (K_sides q x L Hx) as B. fold k in A, B. rewrite E in A. tauto.
  Qed.
  (** What is removed. *)
  Lemma hull_at_inj m n : (m < l)%nat -> (n < l)%nat -> hull_at hull m = hull_at hull n -> m = n.
  Proof.
    intros M N. unfold hull_at. fold l. rewrite !Nat.mod_small by assumption. apply NoDup_nth; auto. now apply NoDup_map_inv in distinct.
  Qed.
  Lemma hull_seq : hull = map (hull_at hull) (seq 0 l).
  Proof.
    apply (nth_ext _ _ 0%nat (hull_at hull 0)); [rewrite map_length, seq_length; reflexivity|]. intros n N. fold l in N. rewrite map_nth, seq_nth by exact N.
    cbn [Nat.add]. unfold hull_at. fold l. now rewrite Nat.mod_small.
  Qed.
  Lemma removed_iff m : (m < l)%nat -> In (hull_at hull m) (to_remove ps hull) <-> flat m = true.
  Proof.
    intro M. unfold to_remove. rewrite in_map_iff. fold l. unfold flat.
    assert (Eq : forall n, h n = P (hull_at hull n)) by reflexivity. split.
    - intros (i & E & I0). apply filter_In in I0. destruct I0 as [I0 C]. apply in_seq in I0.
      assert (Em : ((i + 1) mod l = m)%nat).
      { apply hull_at_inj; [apply Nat.mod_upper_bound; lia|exact M|]. rewrite <- E. unfold hull_at. fold l. now rewrite Nat.mod_mod by lia. }
      rewrite <- !Eq in C. destruct (Nat.eq_dec (i + 1) l) as [D|D].
      + rewrite D, Nat.mod_same in Em by lia. subst m. replace (0 + l - 1)%nat with i by lia. replace (i + 1)%nat with (0 + l)%nat in C by lia.
        replace (i + 2)%nat with (0 + 1 + l)%nat in C by lia. rewrite !h_period in C. exact C.
      + rewrite Nat.mod_small in Em by lia. subst m. replace (i + 1 + l - 1)%nat with (i + l)%nat by lia. rewrite h_period. replace (i + 1 + 1)%nat with (i + 2)%nat by lia. exact C.
    - intro C. destruct m as [|m].
      + exists (l - 1)%nat. split.
        * unfold hull_at. fold l. replace (l - 1 + 1)%nat with (0 + 1 * l)%nat by lia. now rewrite Nat.mod_add by lia.
        * apply filter_In. split; [apply in_seq; lia|]. rewrite <- !Eq. replace (l - 1 + 1)%nat with (0 + l)%nat by lia. replace (l - 1 + 2)%nat with (0 + 1 + l)%nat by lia. rewrite !h_period. exact C.
      + exists m. split; [now replace (m + 1)%nat with (S m) by lia|]. apply filter_In. split; [apply in_seq; lia|]. rewrite <- !Eq.
        replace (S m + l - 1)%nat with (m + l)%nat in C by lia. rewrite h_period in C. replace (m + 1)%nat with (S m) by lia. replace (m + 2)%nat with (S m + 1)%nat by lia. exact C.
  Qed.
  Lemma removed_once : NoDup (to_remove ps hull).
  Proof.
    unfold to_remove. fold l. assert (ND : NoDup (filter (fun i => collinear3 (P (hull_at hull i)) (P (hull_at hull (i + 1))) (P (hull_at hull (i + 2)))) (seq 0 l))) by apply NoDup_filter, seq_NoDup.
    assert (Lt : forall i, In i (filter (fun i => collinear3 (P (hull_at hull i)) (P (hull_at hull (i + 1))) (P (hull_at hull (i + 2)))) (seq 0 l)) -> (i < l)%nat) by (intros i I0; apply filter_In in I0; destruct I0 as [I0 _]; apply in_seq in I0; lia).
    induction ND as [|i r NI ND IH]; cbn [map]; constructor.
    - intro I0. apply in_map_iff in I0. destruct I0 as (j & E & J). apply NI.
      assert (j = i); [|now subst]. assert (Lj := Lt j (or_intror J)). assert (Li := Lt i (or_introl eq_refl)).
      assert (Em : ((j + 1) mod l = (i + 1) mod l)%nat).
      { apply hull_at_inj; [apply Nat.mod_upper_bound; lia|apply Nat.mod_upper_bound; lia|]. unfold hull_at. fold l. rewrite !Nat.mod_mod by lia. exact E. }
      destruct (Nat.eq_dec (j + 1) l) as [Dj|Dj], (Nat.eq_dec (i + 1) l) as [Di|Di]; try lia.
      + rewrite Dj, Nat.mod_same in Em by lia. rewrite Nat.mod_small in Em by lia. lia.
      + rewrite Di, Nat.mod_same in Em by lia. rewrite Nat.mod_small in Em by lia. lia.
      + rewrite !Nat.mod_small in Em by lia. lia.
    - apply IH. intros j J. apply Lt. now right.
  Qed.
  Lemma list_remove_is i (l0 : list nat) : NoDup l0 -> In i l0 -> list_remove i l0 = Ok (filter (fun j => negb (Nat.eqb i j)) l0).
  Proof.
    induction l0 as [|j r IH]; intros ND H; [destruct H|]. inversion ND; subst. cbn [list_remove filter]. destruct (Nat.eqb_spec i j) as [->|N]; cbn [negb].
    - f_equal. symmetry. clear - H2. induction r as [|x r IH]; [reflexivity|]. cbn [filter]. destruct (Nat.eqb_spec j x) as [->|N]; [exfalso; apply H2; now left|].
      cbn [negb]. f_equal. apply IH. intro. apply H2. now right.
    - destruct H as [->|H]; [congruence|]. rewrite IH by assumption. reflexivity.
  Qed.
  Lemma filter_filter {A} (f g : A -> bool) (l0 : list A) : filter f (filter g l0) = filter (fun x => g x && f x) l0.
  Proof. induction l0 as [|x r IH]; [reflexivity|]. cbn [filter]. destruct (g x); cbn [filter andb]; [destruct (f x)|]; now rewrite ?IH. Qed.
  Lemma remove_all_is r : forall l0, NoDup l0 -> NoDup r -> (forall i, In i r -> In i l0) ->
    remove_all r l0 = Ok (filter (fun j => negb (existsb (Nat.eqb j) r)) l0).
  Proof.
    induction r as [|i r IH]; intros l0 N0 NR H.
    - cbn. f_equal. clear. induction l0 as [|x l0 IH]; [reflexivity|]. cbn [filter]. now f_equal.
    - inversion NR; subst. cbn [remove_all]. rewrite list_remove_is by (auto; apply H; now left). cbn [bind]. rewrite IH.
      + f_equal. rewrite filter_filter. apply filter_ext. intro x. cbn [existsb]. rewrite (Nat.eqb_sym x i). now destruct (Nat.eqb i x).
      + now apply NoDup_filter.
      + assumption.
      + intros j J. apply filter_In. split; [apply H; now right|]. apply negb_true_iff, Nat.eqb_neq. intros ->. tauto.
  Qed.
  Lemma filter_map_comm {A B} (f : B -> bool) (g : A -> B) l0 : filter f (map g l0) = map g (filter (fun x => f (g x)) l0).
  Proof. induction l0 as [|x r IH]; [reflexivity|]. cbn [filter map]. destruct (f (g x)); cbn [map]; now rewrite IH. Qed.
  Lemma optimize_is : optimize ps hull = Ok (map (hull_at hull) kept).
  Proof.
    unfold optimize. rewrite remove_all_is.
    - f_equal. match goal with |- filter ?f hull = _ => transitivity (filter f (map (hull_at hull) (seq 0 l))); [now rewrite <- hull_seq|] end. rewrite filter_map_comm. unfold kept. f_equal. apply filter_ext_in. intros m M. apply in_seq in M. f_equal.
      apply eq_true_iff_eq. rewrite <- removed_iff by lia. rewrite existsb_exists. split.
      + intros (x & Hx & E). apply Nat.eqb_eq in E. now subst.
      + intro I0. eexists. split; [exact I0|]. apply Nat.eqb_refl.
    - now apply NoDup_map_inv in distinct.
    - apply removed_once.
    - intros i I0. unfold to_remove in I0. apply in_map_iff in I0. destruct I0 as (j & <- & _). unfold hull_at. apply nth_In, Nat.mod_upper_bound. fold l. lia.
  Qed.
  Lemma max_along w (l0 : list pt) : l0 <> [] -> exists c, In c l0 /\ forall x, In x l0 -> along w x <= along w c.
  Proof.
    induction l0 as [|p r IH]; [congruence|]. intros _. destruct r as [|q r].
    - exists p. split; [now left|]. intros x [<-|[]]. lra.
    - destruct IH as (c & I0 & M); [discriminate|]. destruct (Rle_dec (along w p) (along w c)) as [H|H].
      + exists c. split; [now right|]. intros x [<-|X]; [exact H|auto].
      + exists p. split; [now left|]. intros x [<-|X]; [lra|]. specialize (M x X). lra.
  Qed.
  Lemma optimize_hull : exists idx, optimize ps hull = Ok idx /\ is_hull ps (map P idx).
  Proof.
    eexists. split; [apply optimize_is|]. rewrite map_map.
    assert (EK : map (fun x => P (hull_at hull x)) kept = map K (seq 0 (List.length kept))).
    { apply (nth_ext _ _ (h 0) (K 0)); [now rewrite !map_length, seq_length|]. intros n N. rewrite map_length in N. rewrite (map_nth K), seq_nth by exact N. unfold K, h.
      rewrite <- (map_nth (fun x => P (hull_at hull x)) kept 0%nat). cbn [Nat.add]. apply nth_indep. now rewrite map_length. }
    set (L := map (fun x => P (hull_at hull x)) kept) in *. assert (LL : List.length L = List.length kept) by (unfold L; now rewrite map_length).
    assert (nthL : forall j, (j < List.length kept)%nat -> nth j L (0, 0) = K j).
    { intros j J. rewrite EK. rewrite (nth_indep _ _ (K 0)) by (rewrite map_length, seq_length; exact J). rewrite map_nth, seq_nth by exact J. reflexivity. }
    assert (InL : forall c, In c L -> exists q, (q < List.length kept)%nat /\ c = K q).
    { intros c C. rewrite EK in C. apply in_map_iff in C. destruct C as (q & <- & Q). apply in_seq in Q. exists q. split; [lia|reflexivity]. }
    constructor.
    - intros c C. destruct (InL c C) as (q & _ & ->). apply h_in.
    - intros u v x S0 Hx. apply sides_nth in S0. rewrite LL in S0. destruct S0 as (j & J & -> & ->). rewrite !nthL by (auto; apply Nat.mod_upper_bound; lia). now apply K_sides.
    - intros w x Hx. destruct (max_along w L) as (c & C & M). { intro E. apply kept_some. unfold L in E. now apply map_eq_nil in E. }
      exists c. split; [exact C|]. destruct (InL c C) as (q & Q & ->).
      assert (SL : forall j, (j < List.length kept)%nat -> In (K j, K ((j + 1) mod List.length kept)) (sides L)).
      { intros j J. rewrite <- (nthL j J), <- (nthL ((j + 1) mod List.length kept)%nat) by (apply Nat.mod_upper_bound; lia). rewrite <- LL. apply sides_of. apply (Nat.lt_le_trans _ _ _ J), Nat.eq_le_incl; symmetry; exact LL. }
      assert (IL : forall j, (j < List.length kept)%nat -> In (K j) L) by (intros j J; rewrite <- (nthL j J); apply nth_In; apply (Nat.lt_le_trans _ _ _ J), Nat.eq_le_incl; symmetry; exact LL).
      destruct (prev_of q (List.length kept) Q) as (j & J & E0). pose proof (K_turn j J) as T0. cbn zeta in T0. rewrite E0 in T0.
      assert (Q2 : ((q + 1) mod List.length kept < List.length kept)%nat) by (apply Nat.mod_upper_bound; lia).
      pose proof (Hx _ _ (SL j J)) as S1. pose proof (Hx _ _ (SL q Q)) as S2. rewrite E0 in S1. pose proof (M _ (IL j J)) as U. pose proof (M _ (IL _ Q2)) as V.
      set (u := K j) in *. set (v := K ((q + 1) mod List.length kept)) in *.
      assert (E : cross u (K q) v * (along w x - along w (K q)) = cross (K q) v x * (along w u - along w (K q)) + cross u (K q) x * (along w v - along w (K q))) by (unfold along, cross; ring).
      assert (Y1 : cross (K q) v x * (along w u - along w (K q)) <= 0) by nra. assert (Y2 : cross u (K q) x * (along w v - along w (K q)) <= 0) by nra. nra.
    - intros c C. destruct (InL c C) as (q & Q & ->). destruct (K_corner q Q) as (u & v & U & V & T0 & S0). set (c0 := K q) in *.
      exists ((snd c0 - snd u) + (snd v - snd c0), - (fst c0 - fst u) - (fst v - fst c0)). intros x Hx N. destruct (S0 x Hx) as [S1 S2].
      assert (E : along ((snd c0 - snd u) + (snd v - snd c0), - (fst c0 - fst u) - (fst v - fst c0)) c0 - along ((snd c0 - snd u) + (snd v - snd c0), - (fst c0 - fst u) - (fst v - fst c0)) x = cross u c0 x + cross c0 v x) by (unfold along, cross; cbn [fst snd]; ring).
      assert (X1 : cross u c0 v * (fst x - fst c0) = cross c0 v x * (fst u - fst c0) + cross u c0 x * (fst v - fst c0)) by (unfold cross; ring).
      assert (X2 : cross u c0 v * (snd x - snd c0) = cross c0 v x * (snd u - snd c0) + cross u c0 x * (snd v - snd c0)) by (unfold cross; ring).
      destruct (Rtotal_order 0 (cross u c0 x + cross c0 v x)) as [Y|[Y|Y]]; [lra|exfalso|lra].
      assert (Z1 : cross u c0 x = 0) by lra. assert (Z2 : cross c0 v x = 0) by lra. rewrite Z1, Z2 in X1, X2.
      destruct (pt_ne c0 x ltac:(congruence)) as [B|B]; apply B; nra.
    - unfold L. rewrite <- (map_map (hull_at hull) P). assert (ND : NoDup (map P (map (hull_at hull) (seq 0 l)))) by (rewrite <- hull_seq; exact distinct).
      rewrite map_map in *. revert ND. unfold kept. generalize (seq 0 l). intro s. induction s as [|x s IH]; cbn [map filter]; intro ND; [constructor|].
      inversion ND; subst. destruct (negb (flat x)); [|now apply IH]. cbn [map]. constructor; [|now apply IH].
      intro B. apply H1. apply in_map_iff in B. destruct B as (y & E & Y). apply filter_In in Y. rewrite <- E. apply in_map_iff. exists y. tauto.
  Qed.
End Optimize.

(** ** The extreme points *)
Lemma fold_extreme (x : nat -> R) (l : list nat) : forall m0,
  let m := fold_left (fun m i => if ltb (x i) (x m) then i else m) l m0 in
  (m = m0 \/ In m l) /\ x m <= x m0 /\ (forall i, In i l -> x m <= x i) /\ ((forall i, In i l -> x i = x m0) -> m = m0).
Proof.
  induction l as [|j r IH]; intro m0; cbn [fold_left]; cbn zeta in *.
  - split; [now left|]. split; [lra|]. split; [intros ? []|reflexivity].
  - destruct (ltb (x j) (x m0)) eqn:E; bools.
    + destruct (IH j) as (A & B & C & _). split; [right; destruct A as [->|A]; [now left|now right]|]. split; [lra|]. split.
      * intros i [<-|H]; [exact B|auto].
      * intro H. specialize (H j (or_introl eq_refl)). lra.
    + destruct (IH m0) as (A & B & C & D). split; [destruct A; [now left|right; now right]|]. split; [exact B|]. split.
      * intros i [<-|H]; [lra|auto].
      * intro H. apply D. intros i I0. apply H. now right.
Qed.
Lemma highest_low ps : highest ps = fold_left (fun m i => if ltb (- fst (at_ ps i)) (- fst (at_ ps m)) then i else m) (seq 0 (List.length ps)) 0%nat.
Proof.
  unfold highest. set (l := seq 0 (List.length ps)). clearbody l. generalize 0%nat. induction l as [|i r IH]; intro m; [reflexivity|]. cbn [fold_left].
  replace (ltb (- fst (at_ ps i)) (- fst (at_ ps m))) with (ltb (fst (at_ ps m)) (fst (at_ ps i))); [apply IH|].
  unfold ltb. destruct (Rlt_dec (fst (at_ ps m)) (fst (at_ ps i))), (Rlt_dec (- fst (at_ ps i)) (- fst (at_ ps m))); auto; lra.
Qed.
Lemma extremes_are ps : ps <> [] ->
  (lowest ps < List.length ps)%nat /\ (highest ps < List.length ps)%nat /\
  (forall i, (i < List.length ps)%nat -> fst (at_ ps (lowest ps)) <= fst (at_ ps i) <= fst (at_ ps (highest ps))) /\
  (lowest ps = highest ps <-> forall i j, (i < List.length ps)%nat -> (j < List.length ps)%nat -> fst (at_ ps i) = fst (at_ ps j)).
Proof.
  intro N. assert (L : (0 < List.length ps)%nat) by (destruct ps; [congruence|cbn [List.length]; lia]).
  destruct (fold_extreme (fun i => fst (at_ ps i)) (seq 0 (List.length ps)) 0%nat) as (A & A' & B & C). fold (lowest ps) in A, A', B, C.
  destruct (fold_extreme (fun i => - fst (at_ ps i)) (seq 0 (List.length ps)) 0%nat) as (D & D' & E & F). rewrite <- highest_low in D, D', E, F.
  assert (Lo : (lowest ps < List.length ps)%nat) by (destruct A as [->|A]; [exact L|apply in_seq in A; lia]).
  assert (Hi : (highest ps < List.length ps)%nat) by (destruct D as [->|D]; [exact L|apply in_seq in D; lia]).
  assert (Ra : forall i, (i < List.length ps)%nat -> fst (at_ ps (lowest ps)) <= fst (at_ ps i) <= fst (at_ ps (highest ps))).
  { intros i I0. split; [apply (B i), in_seq; lia|]. assert (X := E i ltac:(apply in_seq; lia)). lra. }
  split; [exact Lo|]. split; [exact Hi|]. split; [exact Ra|]. split.
  - intros Q i j I0 J. pose proof (Ra i I0). pose proof (Ra j J). rewrite Q in *. lra.
  - intro H. rewrite C, F; [reflexivity| |].
    + intros i I0. apply in_seq in I0. f_equal. apply H; lia.
    + intros i I0. apply in_seq in I0. apply H; lia.
Qed.
Lemma side_id d : - PI < d < PI -> side d = d.
Proof. intro H. unfold side. destruct (ltb d PI) eqn:E; bools; [|lra]. destruct (ltb PI (d + 2 * PI)) eqn:E'; bools; lra. Qed.
Lemma side_sign a b x : fst a < fst b -> fst a <= fst x -> x <> a ->
  (0 < side (slope a x - slope a b) <-> 0 < cross a b x) /\ (side (slope a x - slope a b) < 0 <-> cross a b x < 0).
Proof.
  intros B X N. pose proof PI_RGT_0 as Q. unfold slope. pose proof (atan2_right (snd x - snd a) (fst x - fst a) ltac:(lra)) as RX.
  pose proof (atan2_right_strict (snd b - snd a) (fst b - fst a) ltac:(lra)) as RB.
  destruct (turn_sincos (snd x - snd a) (fst x - fst a) (snd b - snd a) (fst b - fst a)) as [S _].
  match type of S with _ * sin ?d0 = _ => assert (DR : - PI < d0 < PI) by lra; rewrite side_id by exact DR; set (d := d0) in * end. destruct (sin_sign d DR) as [U V].
  assert (L : 0 < len (fst x - fst a) (snd x - snd a) * len (fst b - fst a) (snd b - snd a)).
  { apply Rmult_lt_0_compat; apply len_pos; [apply pt_ne; congruence|left; lra]. }
  set (k := len _ _ * len _ _) in *. replace (_ - _) with (cross a b x) in S by (unfold cross; ring). clearbody k d. rewrite U, V. split; split; intro H; nra.
Qed.

Section Whole.
  Variable ps : list pt.
  Local Notation P := (at_ ps).
  Let a := lowest ps. Let b := highest ps. Let n := List.length ps.
  Hypothesis enough : (3 <= n)%nat.
  Hypothesis wide : a <> b.
  Let others := filter (fun i => negb (Nat.eqb i a) && negb (Nat.eqb i b)) (seq 0 n).
  Let lpoints := filter (fun i => ltb 0 (side (slope (P a) (P i) - slope (P a) (P b)))) others.
  Let rpoints := filter (fun i => ltb (side (slope (P a) (P i) - slope (P a) (P b))) 0) others.
  Lemma ab_range : (a < n)%nat /\ (b < n)%nat /\ fst (P a) < fst (P b) /\ forall i, (i < n)%nat -> fst (P a) <= fst (P i) <= fst (P b).
  Proof.
    destruct (extremes_are ps) as (A & B & C & D). { intros ->. cbn in enough. lia. }
    fold a b n in A, B, C, D. split; [exact A|]. split; [exact B|]. split; [|exact C].
    destruct (Rle_lt_dec (fst (P b)) (fst (P a))) as [H|H]; [exfalso|exact H]. apply wide, D. intros i j I0 J. pose proof (C i I0). pose proof (C j J). lra.
  Qed.
  Lemma others_in i : In i others <-> (i < n)%nat /\ i <> a /\ i <> b.
  Proof. unfold others. rewrite filter_In, in_seq, andb_true_iff, !negb_true_iff, !Nat.eqb_neq. intuition lia. Qed.
  Lemma side_of i : (i < n)%nat -> P i <> P a ->
    (0 < side (slope (P a) (P i) - slope (P a) (P b)) <-> 0 < cross (P a) (P b) (P i)) /\ (side (slope (P a) (P i) - slope (P a) (P b)) < 0 <-> cross (P a) (P b) (P i) < 0).
  Proof. intros L N. destruct ab_range as (_ & _ & X & Y). apply side_sign; [exact X|apply Y, L|exact N]. Qed.
  Lemma ltb_iff x y : ltb x y = true <-> x < y.
  Proof. unfold ltb. destruct (Rlt_dec x y); split; intro; first [assumption | discriminate | contradiction | reflexivity]. Qed.
  Lemma in_l i : In i lpoints -> (i < n)%nat /\ (P i = P a \/ 0 < cross (P a) (P b) (P i)).
  Proof.
    unfold lpoints. rewrite filter_In, others_in, ltb_iff. intros [(L & _ & _) S]. split; [exact L|]. destruct (pt_dec (P i) (P a)) as [E|E]; [now left|right]. now apply side_of.
  Qed.
  Lemma in_r i : In i rpoints -> (i < n)%nat /\ (P i = P a \/ cross (P a) (P b) (P i) < 0).
  Proof.
    unfold rpoints. rewrite filter_In, others_in, ltb_iff. intros [(L & _ & _) S]. split; [exact L|]. destruct (pt_dec (P i) (P a)) as [E|E]; [now left|right]. now apply side_of.
  Qed.
  (** Where each point goes. *)
  Lemma sorted_out i : (i < n)%nat -> (In i rpoints \/ 0 <= cross (P a) (P b) (P i)) /\ (In i lpoints \/ cross (P a) (P b) (P i) <= 0).
  Proof.
    intro L. destruct (Nat.eq_dec i a) as [->|Na]; [rewrite cross_aa; lra|]. destruct (Nat.eq_dec i b) as [->|Nb]; [rewrite cross_bb; lra|].
    destruct (pt_dec (P i) (P a)) as [->|N]; [rewrite cross_aa; lra|]. destruct (side_of i L N) as [U V].
    unfold lpoints, rpoints. rewrite !filter_In, !others_in, !ltb_iff, U, V.
    destruct (Rtotal_order (cross (P a) (P b) (P i)) 0) as [H|[H|H]]; split; first [left; tauto|right; lra].
  Qed.
  Lemma raw : exists lower upper, findhull n ps rpoints b a = Ok lower /\ findhull n ps lpoints a b = Ok upper /\ chain ps rpoints b a lower /\ chain ps lpoints a b upper.
  Proof.
    destruct ab_range as (A & B & AB & R0).
    assert (LE : forall f, (List.length (filter f others) <= n)%nat).
    { intro f. pose proof (filter_length_le f others). pose proof (filter_length_le (fun i => negb (Nat.eqb i a) && negb (Nat.eqb i b)) (seq 0 n)) as Q. rewrite seq_length in Q. fold others in Q. lia. }
    destruct (findhull_chain ps n rpoints b a (LE _)) as (lower & E1 & C1).
    - apply NoDup_filter, NoDup_filter, seq_NoDup.
    - intro E. rewrite E in AB. lra.
    - intros i I0. apply in_r in I0. destruct I0 as [_ [E|E]]; [now right; left|right; right]. rewrite cross_swap. lra.
    - destruct (findhull_chain ps n lpoints a b (LE _)) as (upper & E2 & C2).
      + apply NoDup_filter, NoDup_filter, seq_NoDup.
      + intro E. rewrite E in AB. lra.
      + intros i I0. apply in_l in I0. tauto.
      + exists lower, upper. auto.
  Qed.
  Lemma hull_indices_is lower upper : findhull n ps rpoints b a = Ok lower -> findhull n ps lpoints a b = Ok upper -> hull_indices ps = optimize ps (a :: lower ++ b :: upper).
  Proof.
    intros E1 E2. unfold hull_indices. fold n. replace (n <? 3)%nat with false by (symmetry; apply Nat.ltb_ge; lia). fold a b.
    replace (Nat.eqb a b) with false by (symmetry; now apply Nat.eqb_neq). cbn zeta. fold others. fold lpoints rpoints. rewrite E1. cbn [bind]. rewrite E2. reflexivity.
  Qed.
  Lemma all_left lower upper : chain ps rpoints b a lower -> chain ps lpoints a b upper ->
    forall u v, In (u, v) (path ps a lower b) \/ In (u, v) (path ps b upper a) -> u <> v /\ forall x, In x ps -> 0 <= cross u v x.
  Proof.
    intros [_ _ _ L4 L5] [_ _ _ U4 U5] u v H. destruct ab_range as (A & B & AB & R0).
    assert (Al : forall s y, along (s, 0) y = s * fst y) by (intros; unfold along; cbn [fst snd]; ring).
    destruct H as [H|H].
    - destruct (L4 u v H) as (N & UB & UA & UI). split; [exact N|]. intros x Hx. apply (In_nth _ _ (0, 0)) in Hx. destruct Hx as (i & Li & <-). change (0 <= cross u v (P i)). fold n in Li.
      assert (M : fst u <= fst v).
      { assert (M : along (1, 0) u <= along (1, 0) v); [|rewrite !Al in M; lra]. apply L5; [rewrite !Al; lra| |exact H]. intros j J. apply in_r in J. rewrite !Al. pose proof (R0 j (proj1 J)). lra. }
      destruct (sorted_out i Li) as [[S|S] _]; [now apply UI|]. pose proof (R0 i Li) as Ri.
      assert (E : (fst (P b) - fst (P a)) * cross u v (P i) = (fst (P b) - fst (P i)) * cross u v (P a) + (fst (P i) - fst (P a)) * cross u v (P b) + (fst v - fst u) * cross (P a) (P b) (P i)) by (unfold cross; ring).
      apply Rmult_le_reg_l with (fst (P b) - fst (P a)); [lra|]. rewrite Rmult_0_r, E. repeat apply Rplus_le_le_0_compat; apply Rmult_le_pos; lra.
    - destruct (U4 u v H) as (N & UA & UB & UI). split; [exact N|]. intros x Hx. apply (In_nth _ _ (0, 0)) in Hx. destruct Hx as (i & Li & <-). change (0 <= cross u v (P i)). fold n in Li.
      assert (M : fst v <= fst u).
      { assert (M : along (-1, 0) u <= along (-1, 0) v); [|rewrite !Al in M; lra]. apply U5; [rewrite !Al; lra| |exact H]. intros j J. apply in_l in J. rewrite !Al. pose proof (R0 j (proj1 J)). lra. }
      destruct (sorted_out i Li) as [_ [S|S]]; [now apply UI|]. pose proof (R0 i Li) as Ri.
      assert (E : (fst (P b) - fst (P a)) * cross u v (P i) = (fst (P b) - fst (P i)) * cross u v (P a) + (fst (P i) - fst (P a)) * cross u v (P b) + (fst u - fst v) * - cross (P a) (P b) (P i)) by (unfold cross; ring).
      apply Rmult_le_reg_l with (fst (P b) - fst (P a)); [lra|]. rewrite Rmult_0_r, E. repeat apply Rplus_le_le_0_compat; apply Rmult_le_pos; lra.
  Qed.
  Lemma hull_right : ~ on_a_line ps -> exists c, convex_hull ps = Ok c /\ is_hull ps c.
  Proof.
    intro NL. destruct raw as (lower & upper & E1 & E2 & C1 & C2). unfold convex_hull. rewrite (hull_indices_is lower upper E1 E2).
    destruct (optimize_hull ps (a :: lower ++ b :: upper)) as (idx & E & H).
    - cbn [List.length]. rewrite app_length. cbn [List.length]. lia.
    - destruct ab_range as (A & B & _). intros i I0. cbn [In] in I0. rewrite in_app_iff in I0. cbn [In] in I0. fold n. destruct I0 as [<-|[I0|[<-|I0]]]; auto.
      + apply (ch_in _ _ _ _ _ C1) in I0. apply in_r in I0. tauto.
      + apply (ch_in _ _ _ _ _ C2) in I0. apply in_l in I0. tauto.
    - cbn [map]. rewrite map_app. cbn [map]. destruct C1 as [_ N1 L1 _ _], C2 as [_ N2 L2 _ _].
      assert (Lo : forall x, In x (map P lower) -> cross (P a) (P b) x < 0).
      { intros x X. apply in_map_iff in X. destruct X as (i & <- & I0). apply L1 in I0. rewrite cross_swap in I0. lra. }
      assert (Up : forall x, In x (map P upper) -> 0 < cross (P a) (P b) x).
      { intros x X. apply in_map_iff in X. destruct X as (i & <- & I0). apply L2 in I0. exact I0. }
      constructor.
      + rewrite in_app_iff. cbn [In]. intros [X|[X|X]].
        * apply Lo in X. rewrite cross_aa in X. lra.
        * destruct ab_range as (_ & _ & Q & _). rewrite X in Q. lra.
        * apply Up in X. rewrite cross_aa in X. lra.
      + apply NoDup_join; [exact N1|constructor; [|exact N2]|].
        * intro X. apply Up in X. rewrite cross_bb in X. lra.
        * intros x X [<-|Y]; apply Lo in X; [rewrite cross_bb in X; lra|]. apply Up in Y. lra.
    - intros u v H. apply (all_left lower upper C1 C2). 
      assert (E0 : hull_at (a :: lower ++ b :: upper) 0 = a) by (unfold hull_at; rewrite Nat.mod_0_l by discriminate; reflexivity).
      rewrite E0 in H. cbn [map] in H. rewrite map_app in H. cbn [map app] in H. rewrite <- app_assoc in H. cbn [app] in H.
      rewrite app_comm_cons in H. apply pairs_mid in H. exact H.
    - exact NL.
    - exists (map P idx). rewrite E. split; [reflexivity|exact H].
  Qed.
  Lemma hull_line : on_a_line ps -> convex_hull ps = Ok [].
  Proof.
    intro L. destruct raw as (lower & upper & E1 & E2 & C1 & C2). unfold convex_hull. rewrite (hull_indices_is lower upper E1 E2).
    destruct ab_range as (A & B & AB & _). assert (In_ : forall i, (i < n)%nat -> In (P i) ps) by (intros; now apply nth_In).
    assert (lower = []). { destruct lower as [|i r]; [reflexivity|]. exfalso. pose proof (ch_left _ _ _ _ _ C1 i (or_introl eq_refl)) as X. rewrite (L (P b) (P a) (P i)) in X; auto; [lra|]. apply In_. eapply in_r, ch_in; [exact C1|now left]. }
    assert (upper = []). { destruct upper as [|i r]; [reflexivity|]. exfalso. pose proof (ch_left _ _ _ _ _ C2 i (or_introl eq_refl)) as X. rewrite (L (P a) (P b) (P i)) in X; auto; [lra|]. apply In_. eapply in_l, ch_in; [exact C2|now left]. }
    subst lower upper. cbn [app]. unfold optimize, to_remove, hull_at. cbn [List.length seq filter Nat.add Nat.modulo Nat.divmod fst snd Nat.sub nth map].
    assert (Z : forall p q, collinear3 p q p = true) by (intros; apply collinear3_is; apply cross_aa). rewrite !Z. cbn [map nth remove_all list_remove Nat.add Nat.modulo Nat.divmod fst snd Nat.sub bind].
    rewrite !Nat.eqb_refl. replace (Nat.eqb b a) with false by (symmetry; apply Nat.eqb_neq; congruence). cbn [bind remove_all list_remove]. rewrite ?Nat.eqb_refl. reflexivity.
  Qed.
End Whole.
Lemma hull_short ps : (List.length ps < 3)%nat -> convex_hull ps = Err GenericException.
Proof. intro H. unfold convex_hull, hull_indices. replace (List.length ps <? 3)%nat with true by (symmetry; now apply Nat.ltb_lt). reflexivity. Qed.
Lemma hull_upright (ps : list pt) : (forall p q, In p ps -> In q ps -> fst p = fst q) -> convex_hull ps = Err GenericException.
Proof.
  intro H. destruct (le_lt_dec 3 (List.length ps)) as [L|L]; [|now apply hull_short]. unfold convex_hull, hull_indices.
  replace (List.length ps <? 3)%nat with false by (symmetry; apply Nat.ltb_ge; lia). destruct (extremes_are ps) as (_ & _ & _ & D). { intros ->. cbn in L. lia. }
  cbn zeta. replace (Nat.eqb (lowest ps) (highest ps)) with true; [reflexivity|]. symmetry. apply Nat.eqb_eq. apply D. intros i j I0 J. apply H; now apply nth_In.
Qed.
Lemma hull_full (ps : list pt) : ~ on_a_line ps -> exists c, convex_hull ps = Ok c /\ is_hull ps c.
Proof.
  intro NL. apply hull_right; [| |exact NL].
  - destruct (le_lt_dec 3 (List.length ps)) as [L|L]; [exact L|]. exfalso. apply NL. intros p q r P Q R.
    destruct ps as [|x [|y [|z s]]]; cbn [List.length In] in *; try (exfalso; lia);
      repeat match goal with H : _ \/ _ |- _ => destruct H as [H|H] end; try contradiction; subst; unfold cross; ring.
  - intro E. destruct (extremes_are ps) as (_ & _ & _ & D). { intros ->. apply NL. intros ? ? ? []. }
    apply NL. intros p q r P Q R. assert (X : forall p q, In p ps -> In q ps -> fst p = fst q).
    { intros s t S T0. apply (In_nth _ _ (0, 0)) in S. apply (In_nth _ _ (0, 0)) in T0. destruct S as (i & I0 & <-), T0 as (j & J & <-). now apply D. }
    unfold cross. rewrite (X q p Q P), (X r p R P). ring.
Qed.
Lemma hull_flat (ps : list pt) : (3 <= List.length ps)%nat -> on_a_line ps -> (exists p q, In p ps /\ In q ps /\ fst p <> fst q) -> convex_hull ps = Ok [].
Proof.
  intros L O (p & q & P & Q & N). apply hull_line; [exact L| |exact O]. intro E. destruct (extremes_are ps) as (_ & _ & _ & D). { intros ->. destruct P. }
  apply N. apply (In_nth _ _ (0, 0)) in P. apply (In_nth _ _ (0, 0)) in Q. destruct P as (i & I0 & <-), Q as (j & J & <-). now apply D.
Qed.

Lemma hull_unique (ps l1 l2 : list pt) : is_hull ps l1 -> is_hull ps l2 -> forall c, In c l1 <-> In c l2.
Proof.
  assert (H : forall l1 l2, is_hull ps l1 -> is_hull ps l2 -> forall c, In c l1 -> In c l2).
  { intros l l' [G1 _ _ E1 _] [G2 S2 C2 _ _] c Hc. destruct (E1 c Hc) as (w & W). destruct (C2 w c) as (d & Hd & Le); [intros u v S; exact (proj2 (S2 u v c S (G1 c Hc)))|].
    destruct (pt_dec d c) as [<-|N]; [exact Hd|]. specialize (W d (G2 d Hd) N). lra. }
  intros A B c. split; eauto.
Qed.

(** ** Lines drawn with a rectangle *)
Lemma corners_are a b w h p : In p (line_corners a b w h) <-> exists c sx sy, (c = a \/ c = b) /\ (sx = -1 \/ sx = 1) /\ (sy = -1 \/ sy = 1) /\ p = (fst c + sx * (w / 2), snd c + sy * (h / 2)).
Proof.
  unfold line_corners. cbn [flat_map app In]. split.
  - intros H. repeat destruct H as [H|H]; try contradiction; subst p;
      [exists a, (-1), (-1)|exists a, 1, (-1)|exists a, (-1), 1|exists a, 1, 1|exists b, (-1), (-1)|exists b, 1, (-1)|exists b, (-1), 1|exists b, 1, 1]; repeat split; auto; f_equal; field.
  - intros (c & sx & sy & [->| ->] & [->| ->] & [->| ->] & ->); [do 0 right|do 2 right|do 1 right|do 3 right|do 4 right|do 6 right|do 5 right|do 7 right]; left; f_equal; field.
Qed.
Lemma corners_area a b w h : 0 < w -> 0 < h -> ~ on_a_line (line_corners a b w h).
Proof.
  intros W H L. specialize (L (fst a - w / 2, snd a - h / 2) (fst a + w / 2, snd a - h / 2) (fst a - w / 2, snd a + h / 2)).
  unfold line_corners, cross in L. cbn [flat_map app In fst snd] in L. specialize (L ltac:(tauto) ltac:(tauto) ltac:(tauto)).
  assert (0 < w * h) by (now apply Rmult_lt_0_compat). nra.
Qed.
(** One number in three intervals which meet pairwise. *)
Lemma helly l1 u1 l2 u2 : 0 <= u1 -> 0 <= u2 -> l1 <= 1 -> l2 <= 1 -> l1 <= u1 -> l2 <= u2 -> l1 <= u2 -> l2 <= u1 ->
  exists t, 0 <= t <= 1 /\ l1 <= t <= u1 /\ l2 <= t <= u2.
Proof.
  intros. exists (Rmax 0 (Rmax l1 l2)). unfold Rmax. destruct (Rle_dec l1 l2); [destruct (Rle_dec 0 l2)|destruct (Rle_dec 0 l1)]; lra.
Qed.
Lemma stroke_iff a b w h p : 0 <= w -> 0 <= h ->
  (forall d, exists c, In c (line_corners a b w h) /\ along d p <= along d c) -> stroke (segment a b) (oblong w h) p.
Proof.
  intros W H D. set (dx := fst b - fst a). set (dy := snd b - snd a). set (X := fst p - fst a). set (Y := snd p - snd a).
  assert (S : exists t, 0 <= t <= 1 /\ - (w / 2) <= X - t * dx <= w / 2 /\ - (h / 2) <= Y - t * dy <= h / 2).
  { assert (B : forall d, exists t, (t = 0 \/ t = 1) /\ fst d * X + snd d * Y <= t * (fst d * dx + snd d * dy) + Rabs (fst d) * (w / 2) + Rabs (snd d) * (h / 2)).
    { intro d. destruct (D d) as (c & C & L). apply corners_are in C. destruct C as (e & sx & sy & E & SX & SY & ->). unfold along in L. cbn [fst snd] in L.
      assert (AX : fst d * sx * (w / 2) <= Rabs (fst d) * (w / 2)). { apply Rmult_le_compat_r; [lra|]. pose proof (Rle_abs (fst d)). pose proof (Rle_abs (- fst d)) as Q. rewrite Rabs_Ropp in Q. destruct SX as [->| ->]; lra. }
      assert (AY : snd d * sy * (h / 2) <= Rabs (snd d) * (h / 2)). { apply Rmult_le_compat_r; [lra|]. pose proof (Rle_abs (snd d)). pose proof (Rle_abs (- snd d)) as Q. rewrite Rabs_Ropp in Q. destruct SY as [->| ->]; lra. }
      destruct E as [->| ->]; [exists 0|exists 1]; (split; [auto|]); unfold X, Y, dx, dy; lra. }
    assert (R1 : Rabs 1 = 1) by (apply Rabs_right; lra). assert (R1' : Rabs (-1) = 1) by (rewrite Rabs_left; lra). assert (R0 : Rabs 0 = 0) by apply Rabs_R0.
    destruct (B (1, 0)) as (t1 & T1 & B1). destruct (B (-1, 0)) as (t2 & T2 & B2). destruct (B (0, 1)) as (t3 & T3 & B3). destruct (B (0, -1)) as (t4 & T4 & B4).
    cbn [fst snd] in *. rewrite R1, R0 in B1. rewrite R1', R0 in B2. rewrite R1, R0 in B3. rewrite R1', R0 in B4.
    assert (N1 : dy * X - dx * Y <= Rabs dy * (w / 2) + Rabs dx * (h / 2)).
    { destruct (B (dy, - dx)) as (t & T0 & Q). cbn [fst snd] in Q. rewrite Rabs_Ropp in Q. replace (t * (dy * dx + - dx * dy)) with 0 in Q by ring. lra. }
    assert (N2 : dx * Y - dy * X <= Rabs dy * (w / 2) + Rabs dx * (h / 2)).
    { destruct (B (- dy, dx)) as (t & T0 & Q). cbn [fst snd] in Q. rewrite Rabs_Ropp in Q. replace (t * (- dy * dx + dx * dy)) with 0 in Q by ring. lra. }
    clear B D. clearbody dx dy X Y.
    (** the part of the line whose x fits, and the part whose y fits *)
    assert (In1 : forall d Z r t t', 0 <= r -> t = 0 \/ t = 1 -> t' = 0 \/ t' = 1 -> Z <= t * d + r -> - Z <= t' * - d + r -> d <> 0 ->
      exists l u, l <= 1 /\ 0 <= u /\ l <= u /\ (forall s, l <= s <= u -> - r <= Z - s * d <= r) /\ (0 < d -> l * d = Z - r /\ u * d = Z + r) /\ (d < 0 -> l * d = Z + r /\ u * d = Z - r)).
    { clear. intros d Z r t t' R0 T1 T2 A B N. destruct (Rlt_dec 0 d) as [P|P].
      - exists ((Z - r) / d), ((Z + r) / d). assert (E1 : (Z - r) / d * d = Z - r) by (field; lra). assert (E2 : (Z + r) / d * d = Z + r) by (field; lra).
        set (l := (Z - r) / d) in *. set (u := (Z + r) / d) in *. clearbody l u. repeat split; try lra; try (destruct T1, T2; subst; nra); intros; try lra; nra.
      - exists ((Z + r) / d), ((Z - r) / d). assert (E1 : (Z + r) / d * d = Z + r) by (field; lra). assert (E2 : (Z - r) / d * d = Z - r) by (field; lra).
        set (l := (Z + r) / d) in *. set (u := (Z - r) / d) in *. clearbody l u. repeat split; try lra; try (destruct T1, T2; subst; nra); intros; try lra; nra. }
    destruct (Req_dec dx 0) as [Zx|Zx], (Req_dec dy 0) as [Zy|Zy].
    - exists 0. subst dx dy. repeat split; lra.
    - subst dx. destruct (In1 dy Y (h / 2) t3 t4) as (l & u & A1 & A2 & A3 & A4 & _); [lra|exact T3|exact T4|lra|lra|exact Zy|].
      destruct (helly l u l u) as (t & U & V & _); auto. exists t. split; [exact U|]. split; [lra|]. apply A4, V.
    - subst dy. destruct (In1 dx X (w / 2) t1 t2) as (l & u & A1 & A2 & A3 & A4 & _); [lra|exact T1|exact T2|lra|lra|exact Zx|].
      destruct (helly l u l u) as (t & U & V & _); auto. exists t. split; [exact U|]. split; [apply A4, V|lra].
    - destruct (In1 dx X (w / 2) t1 t2) as (l1 & u1 & A1 & A2 & A3 & A4 & A5 & A6); [lra|exact T1|exact T2|lra|lra|exact Zx|].
      destruct (In1 dy Y (h / 2) t3 t4) as (l2 & u2 & C1 & C2 & C3 & C4 & C5 & C6); [lra|exact T3|exact T4|lra|lra|exact Zy|].
      assert (M : l1 <= u2 /\ l2 <= u1).
      { clear - Zx Zy A5 A6 C5 C6 N1 N2 W H. destruct (Rlt_dec 0 dx) as [P|P], (Rlt_dec 0 dy) as [Q|Q].
        - rewrite !Rabs_right in N1, N2 by lra. destruct (A5 P) as [E1 E2], (C5 Q) as [E3 E4]. assert (PQ : 0 < dx * dy) by nra.
          assert (F1 : (u2 - l1) * (dx * dy) = (Y + h / 2) * dx - (X - w / 2) * dy) by (rewrite <- E1, <- E4; ring).
          assert (F2 : (u1 - l2) * (dx * dy) = (X + w / 2) * dy - (Y - h / 2) * dx) by (rewrite <- E2, <- E3; ring). split; nra.
        - rewrite (Rabs_right dx), (Rabs_left dy) in N1, N2 by lra. destruct (A5 P) as [E1 E2], (C6 ltac:(lra)) as [E3 E4]. assert (PQ : dx * dy < 0) by nra.
          assert (F1 : (u2 - l1) * (dx * dy) = (Y - h / 2) * dx - (X - w / 2) * dy) by (rewrite <- E1, <- E4; ring).
          assert (F2 : (u1 - l2) * (dx * dy) = (X + w / 2) * dy - (Y + h / 2) * dx) by (rewrite <- E2, <- E3; ring). split; nra.
        - rewrite (Rabs_left dx), (Rabs_right dy) in N1, N2 by lra. destruct (A6 ltac:(lra)) as [E1 E2], (C5 Q) as [E3 E4]. assert (PQ : dx * dy < 0) by nra.
          assert (F1 : (u2 - l1) * (dx * dy) = (Y + h / 2) * dx - (X + w / 2) * dy) by (rewrite <- E1, <- E4; ring).
          assert (F2 : (u1 - l2) * (dx * dy) = (X - w / 2) * dy - (Y - h / 2) * dx) by (rewrite <- E2, <- E3; ring). split; nra.
        - rewrite !Rabs_left in N1, N2 by lra. destruct (A6 ltac:(lra)) as [E1 E2], (C6 ltac:(lra)) as [E3 E4]. assert (PQ : 0 < dx * dy) by nra.
          assert (F1 : (u2 - l1) * (dx * dy) = (Y - h / 2) * dx - (X + w / 2) * dy) by (rewrite <- E1, <- E4; ring).
          assert (F2 : (u1 - l2) * (dx * dy) = (X - w / 2) * dy - (Y + h / 2) * dx) by (rewrite <- E2, <- E3; ring). split; nra. }
      destruct (helly l1 u1 l2 u2) as (t & U & V & V'); try tauto. exists t. split; [exact U|]. split; [apply A4, V|apply C4, V']. }
  destruct S as (t & T0 & SX & SY). exists (fst a + t * (fst b - fst a), snd a + t * (snd b - snd a)), (X - t * dx, Y - t * dy). split; [exists t; auto|]. split; [split; cbn [fst snd]; assumption|].
  unfold X, Y, dx, dy. cbn [fst snd]. destruct p. cbn [fst snd]. f_equal; ring.
Qed.
Lemma line_sweep a b w h : 0 < w -> 0 < h -> exists corners, line_vertices a b w h = Ok corners /\ is_hull (line_corners a b w h) corners /\
  forall p, stroke (segment a b) (oblong w h) p <-> forall u v, In (u, v) (sides corners) -> 0 <= cross u v p.
Proof.
  intros W H. destruct (hull_full _ (corners_area a b w h W H)) as (corners & E & HH). exists corners. split; [exact E|]. split; [exact HH|]. destruct HH as [G S C _ _]. intro p. split.
  - intros ([qx qy] & [vx vy] & (t & T0 & Q) & [VX VY] & ->) u v UV. cbn [fst snd] in *. injection Q as -> ->.
    (* the point between the eight corners *)
    set (F := fun x y : R => cross u v (x, y)).
    assert (FA : forall c sx sy, (c = a \/ c = b) -> (sx = -1 \/ sx = 1) -> (sy = -1 \/ sy = 1) -> 0 <= F (fst c + sx * (w / 2)) (snd c + sy * (h / 2))).
    { intros c sx sy C0 S1 S2. apply (S u v _ UV). apply corners_are. exists c, sx, sy. auto. }
    set (kx := vx / (w / 2)). set (ky := vy / (h / 2)). assert (Ex : vx = kx * (w / 2)) by (unfold kx; field; lra). assert (Ey : vy = ky * (h / 2)) by (unfold ky; field; lra).
    assert (Kx : -1 <= kx <= 1) by (clearbody kx; nra). assert (Ky : -1 <= ky <= 1) by (clearbody ky; nra). clearbody kx ky. subst vx vy.
    assert (Mid : forall c, (c = a \/ c = b) -> 0 <= F (fst c + kx * (w / 2)) (snd c + ky * (h / 2))).
    { intros c C0. pose proof (FA c (-1) (-1) C0 ltac:(auto) ltac:(auto)) as F1. pose proof (FA c (-1) 1 C0 ltac:(auto) ltac:(auto)) as F2. pose proof (FA c 1 (-1) C0 ltac:(auto) ltac:(auto)) as F3. pose proof (FA c 1 1 C0 ltac:(auto) ltac:(auto)) as F4.
      replace (F (fst c + kx * (w / 2)) (snd c + ky * (h / 2))) with
        (((1 - kx) / 2 * ((1 - ky) / 2)) * F (fst c + -1 * (w / 2)) (snd c + -1 * (h / 2)) + ((1 - kx) / 2 * ((1 + ky) / 2)) * F (fst c + -1 * (w / 2)) (snd c + 1 * (h / 2))
         + ((1 + kx) / 2 * ((1 - ky) / 2)) * F (fst c + 1 * (w / 2)) (snd c + -1 * (h / 2)) + ((1 + kx) / 2 * ((1 + ky) / 2)) * F (fst c + 1 * (w / 2)) (snd c + 1 * (h / 2)))
        by (unfold F, cross; cbn [fst snd]; field).
      repeat apply Rplus_le_le_0_compat; (apply Rmult_le_pos; [|assumption]); apply Rmult_le_pos; lra. }
    pose proof (Mid a ltac:(auto)) as Ma. pose proof (Mid b ltac:(auto)) as Mb.
    change (0 <= F (fst a + t * (fst b - fst a) + kx * (w / 2)) (snd a + t * (snd b - snd a) + ky * (h / 2))).
    replace (F (fst a + t * (fst b - fst a) + kx * (w / 2)) (snd a + t * (snd b - snd a) + ky * (h / 2))) with ((1 - t) * F (fst a + kx * (w / 2)) (snd a + ky * (h / 2)) + t * F (fst b + kx * (w / 2)) (snd b + ky * (h / 2))) by (unfold F, cross; cbn [fst snd]; ring).
    apply Rplus_le_le_0_compat; apply Rmult_le_pos; lra.
  - intro L. apply stroke_iff; [lra|lra|]. intro d. destruct (C d p L) as (c & Hc & Le). exists c. split; [now apply G|exact Le].
Qed.
Lemma line_outline a b w h : 0 < w -> 0 < h -> exists corners, line_vertices a b w h = Ok corners /\ NoDup corners /\
  (forall c, In c corners -> stroke (segment a b) (oblong w h) c) /\
  forall p, stroke (segment a b) (oblong w h) p <-> forall u v, In (u, v) (sides corners) -> 0 <= cross u v p.
Proof.
  intros W H. destruct (line_sweep a b w h W H) as (corners & E & [G S _ _ N] & R0). exists corners. split; [exact E|]. split; [exact N|]. split; [|exact R0].
  intros c C. apply R0. intros u v UV. apply (S u v c UV (G c C)).
Qed.
