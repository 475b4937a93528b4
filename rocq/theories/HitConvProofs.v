(** Lemmas about drill hits converted one by one. *)
From Verif Require Import PyBase QcLib NumModel GerberText ExcellonModel ExcellonFile ExcellonProofs ExcellonMore HitConvSpec.
Open Scope list_scope.
Open Scope Qc_scope.

Lemma conv_length u v : conv u v = length_in u v.
Proof. destruct u; reflexivity. Qed.
Lemma uses_tool h l : uses h l <-> hit_tool h = Some l.
Proof. destruct h; reflexivity. Qed.
Lemma unit_dec (u v : unit_) : u = v \/ u <> v.
Proof. destruct u, v; (now left) || (right; discriminate). Qed.
Lemma same_unit_false a b : a <> b -> same_unit a b = false.
Proof. intros N. destruct (same_unit a b) eqn:E; [|reflexivity]. now apply same_unit_true in E. Qed.
Lemma conv_tool_in u t : tool_in u t (conv_tool u t).
Proof.
  unfold conv_tool. destruct (unit_dec (xs_units (t_set t)) u) as [E|N].
  - rewrite (proj2 (same_unit_true _ _) E). unfold tool_in. intuition congruence.
  - rewrite (same_unit_false _ _ N). unfold tool_in. cbn. repeat split; intros; try contradiction; destruct (t_diam t); cbn; rewrite ?conv_length; reflexivity.
Qed.
Lemma conv_tool_same u t : xs_units (t_set t) = u -> conv_tool u t = t.
Proof. intros E. unfold conv_tool. now rewrite (proj2 (same_unit_true _ _) E). Qed.
Lemma tset_id s : forall l f t, tget s l = Some t -> f t = t -> tset s l f = s.
Proof. induction s as [|x s IH]; intros [|l] f t G E; try discriminate G; cbn in *; [injection G as ->; now rewrite E|f_equal; eapply IH; eassumption]. Qed.

Lemma conv_hit_step u s h s1 h1 : conv_hit u s h = Ok (s1, h1) -> exists l t, uses h l /\ nth_error s l = Some t /\ s1 = tset s l (conv_tool u) /\
  (xs_units (t_set t) = u -> h1 = h) /\ (xs_units (t_set t) <> u -> changed u h h1).
Proof.
  unfold conv_hit. destruct (hit_tool h) as [l|] eqn:E; [|discriminate]. cbn [tool_at]. destruct (tget s l) as [t|] eqn:G; [|discriminate]. cbn [bind].
  intros H. exists l, t. split; [now apply uses_tool|]. split; [exact G|]. destruct (unit_dec (xs_units (t_set t)) u) as [U|N].
  - rewrite (proj2 (same_unit_true _ _) U) in H. apply ok_inj in H. injection H as <- <-. split; [symmetry; apply (tset_id _ _ _ t G); now apply conv_tool_same|]. split; [reflexivity|contradiction].
  - rewrite (same_unit_false _ _ N) in H. destruct h as [o p|o a b r].
    + apply ok_inj in H. injection H as <- <-. split; [reflexivity|]. split; [contradiction|]. intros _. rewrite !conv_length. constructor.
    + destruct a as [[a1|] [a2|]]; cbn [conv_point bind] in H; try discriminate H. destruct b as [[b1|] [b2|]]; cbn [conv_point bind] in H; try discriminate H.
      apply ok_inj in H. injection H as <- <-. split; [reflexivity|]. split; [contradiction|]. intros _. rewrite !conv_length. exact (changed_slot u o (a1, a2) (b1, b2) r).
Qed.
Lemma conv_hit_ok u s h l t : uses h l -> nth_error s l = Some t -> complete h -> exists s1 h1, conv_hit u s h = Ok (s1, h1).
Proof.
  intros U G C. unfold conv_hit. rewrite (proj1 (uses_tool h l) U). cbn [tool_at]. unfold tget. rewrite G. cbn [bind]. destruct (same_unit _ u); [eauto|].
  destruct h as [o p|o a b r]; [eauto|]. destruct C as (p & q & -> & ->). cbn. eauto.
Qed.
Lemma hit_same u h h1 l : changed u h h1 \/ h1 = h -> uses h l -> uses h1 l.
Proof. intros [C| ->] U; [|exact U]. destruct C; exact U. Qed.

Lemma conv_hits_each u : forall hs s s' hs', conv_hits u s hs = Ok (s', hs') ->
  List.length hs' = List.length hs /\
  (forall i h, nth_error hs i = Some h -> exists h', nth_error hs' i = Some h' /\
     (first_of_tool u s (firstn i hs) h -> changed u h h') /\ (~ first_of_tool u s (firstn i hs) h -> h' = h)) /\
  (forall l t, nth_error s l = Some t -> exists t', nth_error s' l = Some t' /\ ((exists h, In h hs /\ uses h l) -> tool_in u t t') /\ (~ (exists h, In h hs /\ uses h l) -> t' = t)).
Proof.
  induction hs as [|h hs IH]; intros s s' hs' H.
  - cbn in H. apply ok_inj in H. injection H as <- <-. split; [reflexivity|]. split; [intros [|i] h E; discriminate E|]. intros l t G. exists t. split; [exact G|]. split; [intros (h & [] & _)|reflexivity].
  - cbn [conv_hits] in H. destruct (conv_hit u s h) as [[s1 h1]|] eqn:E; [|discriminate H]. cbn [bind fst snd] in H.
    destruct (conv_hits u s1 hs) as [[s2 hs2]|] eqn:E2; [|discriminate H]. cbn [bind fst snd] in H. apply ok_inj in H. injection H as <- <-.
    destruct (conv_hit_step _ _ _ _ _ E) as (l & t & U & G & S1 & Same & Ch). destruct (IH _ _ _ E2) as (L & A & B).
    split; [cbn; now rewrite L|]. split.
    + intros [|i] g Eg.
      * injection Eg as <-. exists h1. split; [reflexivity|]. split.
        -- intros (l' & t' & U' & G' & N' & _). assert (l' = l) as -> by (apply uses_tool in U, U'; congruence). rewrite G in G'. injection G' as <-. now apply Ch.
        -- intros NF. apply Same. destruct (unit_dec (xs_units (t_set t)) u) as [Q|Q]; [exact Q|]. exfalso. apply NF. exists l, t. repeat split; auto.
      * destruct (A i g Eg) as (g' & Eg' & F1 & F2). exists g'. split; [exact Eg'|].
        assert (K : first_of_tool u s (firstn (Datatypes.S i) (h :: hs)) g <-> first_of_tool u s1 (firstn i hs) g).
        { cbn [firstn]. split.
          - intros (l' & t' & U' & G' & N' & B'). exists l', t'. split; [exact U'|]. split; [|split; [exact N'|intros k Hk; apply B'; now right]].
            subst s1. change (tget (tset s l (conv_tool u)) l' = Some t'). rewrite tget_tset_other; [exact G'|]. intros ->. exact (B' h (or_introl eq_refl) U).
          - intros (l' & t' & U' & G' & N' & B'). subst s1. destruct (Nat.eq_dec l l') as [<-|Nl].
            + exfalso. change (tget (tset s l (conv_tool u)) l = Some t') in G'. rewrite (tget_tset_same _ _ _ _ G) in G'. injection G' as <-. apply N'. exact (proj1 (conv_tool_in u t)).
            + change (tget (tset s l (conv_tool u)) l' = Some t') in G'. rewrite tget_tset_other in G' by exact Nl. exists l', t'. split; [exact U'|]. split; [exact G'|]. split; [exact N'|].
              intros k [<-|Hk]; [|now apply B']. intros U''. apply uses_tool in U, U''. congruence. }
        split; intros X; [apply F1; now apply K|apply F2; intros Y; apply X; now apply K].
    + intros l' t' G'. destruct (Nat.eq_dec l l') as [<-|Nl].
      * rewrite G in G'. injection G' as <-. assert (G1 : nth_error s1 l = Some (conv_tool u t)) by (subst s1; exact (tget_tset_same _ _ _ _ G)).
        destruct (B _ _ G1) as (t2 & G2 & I1 & I2). exists t2. split; [exact G2|]. assert (t2 = conv_tool u t) as ->.
        { assert (D : (exists g, In g hs /\ uses g l) \/ ~ (exists g, In g hs /\ uses g l)).
          { clear. induction hs as [|g hs IH]; [right; intros (x & [] & _)|]. assert (Dg : uses g l \/ ~ uses g l).
            { rewrite uses_tool. destruct (hit_tool g) as [k|]; [|right; discriminate]. destruct (Nat.eq_dec k l) as [->|N]; [now left|right; congruence]. }
            destruct Dg as [Y|N]; [left; exists g; split; [now left|exact Y]|]. destruct IH as [(x & X1 & X2)|X]; [left; exists x; split; [now right|exact X2]|].
            right. intros (x & [<-|X1] & X2); [contradiction|apply X; now exists x]. }
          destruct D as [D|D]; [|now apply I2]. destruct (I1 D) as (_ & Z & _). apply Z. exact (proj1 (conv_tool_in u t)). }
        split; [intros _; apply conv_tool_in|]. intros X. exfalso. apply X. exists h. split; [now left|exact U].
      * assert (G1 : nth_error s1 l' = Some t') by (subst s1; change (tget (tset s l (conv_tool u)) l' = Some t'); rewrite tget_tset_other; assumption).
        destruct (B _ _ G1) as (t2 & G2 & I1 & I2). exists t2. split; [exact G2|]. split.
        -- intros (g & [<-|Hg] & Ug); [exfalso; apply uses_tool in U, Ug; congruence|]. apply I1. now exists g.
        -- intros X. apply I2. intros (g & Hg & Ug). apply X. exists g. split; [now right|exact Ug].
Qed.
Lemma conv_hits_ok u : forall hs s, (forall h, In h hs -> complete h /\ exists l t, uses h l /\ nth_error s l = Some t) -> exists s' hs', conv_hits u s hs = Ok (s', hs').
Proof.
  induction hs as [|h hs IH]; intros s H; [eexists _, _; reflexivity|]. destruct (H h (or_introl eq_refl)) as (C & l & t & U & G).
  destruct (conv_hit_ok u s h l t U G C) as (s1 & h1 & E). destruct (conv_hit_step _ _ _ _ _ E) as (l1 & t1 & _ & _ & S1 & _).
  destruct (IH s1) as (s2 & hs2 & E2).
  - intros g Hg. destruct (H g (or_intror Hg)) as (Cg & lg & tg & Ug & Gg). split; [exact Cg|]. exists lg. destruct (nth_error s1 lg) as [x|] eqn:X; [now exists x|]. exfalso.
    apply nth_error_None in X. subst s1. rewrite tset_length in X. apply nth_error_None in X. congruence.
  - cbn [conv_hits]. rewrite E. cbn [bind fst snd]. rewrite E2. eexists _, _. reflexivity.
Qed.
Lemma conv_hits_apart u s hs : (forall h, In h hs -> complete h /\ exists l t, uses h l /\ nth_error s l = Some t /\ xs_units (t_set t) <> u) ->
  (forall i j g h l, nth_error hs i = Some g -> nth_error hs j = Some h -> uses g l -> uses h l -> i = j) ->
  exists s' hs', conv_hits u s hs = Ok (s', hs') /\ Forall2 (changed u) hs hs'.
Proof.
  intros H D. destruct (conv_hits_ok u hs s) as (s' & hs' & E); [intros h Hh; destruct (H h Hh) as (C & l & t & U & G & _); split; [exact C|now exists l, t]|].
  exists s', hs'. split; [exact E|]. destruct (conv_hits_each u hs s s' hs' E) as (L & A & _).
  assert (P : forall i h, nth_error hs i = Some h -> exists h', nth_error hs' i = Some h' /\ changed u h h').
  { intros i h Eh. destruct (A i h Eh) as (h' & Eh' & F & _). exists h'. split; [exact Eh'|]. apply F. destruct (H h (nth_error_In _ _ Eh)) as (_ & l & t & U & G & N). exists l, t. repeat split; auto.
    intros g Hg Ug. apply In_nth_error in Hg as [j Hj]. assert (Lj : (j < i)%nat).
    { assert (j < List.length (firstn i hs))%nat by (apply nth_error_Some; congruence). rewrite firstn_length in H0. lia. }
    assert (Hj' : nth_error hs j = Some g). { rewrite <- (firstn_skipn i hs), nth_error_app1; [exact Hj|]. apply nth_error_Some. congruence. }
    specialize (D j i g h l Hj' Eh Ug U). lia. }
  clear -L P. revert hs' L P. induction hs as [|h hs IH]; intros [|h' hs'] L P; try discriminate L; [constructor|]. constructor.
  - destruct (P 0%nat h eq_refl) as (x & Ex & C). injection Ex as <-. exact C.
  - apply IH; [now injection L|]. intros i g Eg. exact (P (Datatypes.S i) g Eg).
Qed.
