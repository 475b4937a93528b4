(** Looking for layers. *)
From Verif Require Import PyBase LookupModel LookupSpec.
From Coq Require Import Lia.
Import ListNotations.
Open Scope list_scope.

Lemma eq_same a b : same_sort a b -> exists r, layer_eq a b = Ok r.
Proof.
  unfold same_sort, internal, layer_eq, internal_cmp. destruct (order a), (order b); intros [H H']; try (eexists; reflexivity).
  - exfalso. apply H; [discriminate|reflexivity].
  - exfalso. apply H'; [discriminate|reflexivity].
Qed.
Lemma eq_other a b : ~ same_sort a b -> layer_eq a b = Err TypeError.
Proof.
  unfold same_sort, internal, layer_eq, internal_cmp. destruct (order a) as [n|] eqn:A, (order b) as [m|] eqn:B; intros H; rewrite ?A, ?B; try reflexivity.
  - exfalso. apply H. split; discriminate.
  - exfalso. apply H. split; intros X _; now apply X.
Qed.
Lemma in_found x l r : Forall (fun e => same_sort e x) l -> layer_in x (l ++ x :: r) = Ok true.
Proof.
  induction 1 as [|e l S _ IH]; cbn [app layer_in]; [now rewrite Nat.eqb_refl|].
  destruct (Nat.eqb (which e) (which x)); [reflexivity|]. destruct (eq_same e x S) as [b ->]. cbn [bind]. now destruct b.
Qed.
Lemma in_error x l r e : ~ same_sort e x -> which e <> which x -> Forall (fun a => layer_eq a x = Ok false /\ which a <> which x) l ->
  layer_in x (l ++ e :: r) = Err TypeError.
Proof.
  intros S W. induction 1 as [|a l [E N] _ IH]; cbn [app layer_in].
  - apply Nat.eqb_neq in W. now rewrite W, (eq_other e x S).
  - apply Nat.eqb_neq in N. now rewrite N, E.
Qed.
Lemma in_plain x l : ~ internal x -> Forall (fun e => ~ internal e) l -> one_object (x :: l) -> (layer_in x l = Ok true <-> In x l).
Proof.
  intros X F O. split; [|intros H].
  - assert (K : forall l0, incl l0 l -> layer_in x l0 = Ok true -> In x l0).
    { rewrite Forall_forall in F. induction l0 as [|e l0 IH]; intros I H; [discriminate H|]. cbn [layer_in] in H.
      assert (W : which e = which x -> e = x) by (apply O; [right; apply I; now left|now left]).
      destruct (Nat.eqb_spec (which e) (which x)) as [E|E]; [left; auto|].
      assert (P : order e = None) by (destruct (order e) eqn:Q; [exfalso; apply (F e); [apply I; now left|unfold internal; congruence]|reflexivity]).
      assert (P' : order x = None) by (destruct (order x) eqn:Q; [exfalso; apply X; unfold internal; congruence|reflexivity]).
      unfold layer_eq in H. rewrite P, P' in H. cbn [bind] in H. apply Nat.eqb_neq in E. rewrite E in H. right. apply IH; [|exact H]. intros y Hy. apply I. now right. }
    apply K, incl_refl.
  - apply in_split in H as (l1 & l2 & ->). apply in_found. apply Forall_app in F as [F _]. eapply Forall_impl; [|exact F]. intros e N. split; intros Y; contradiction.
Qed.
Lemma in_internal x l : internal x -> Forall internal l -> one_object (x :: l) ->
  (layer_in x l = Ok true <-> exists e, In e l /\ order e = order x) /\ (layer_in x l = Ok true \/ layer_in x l = Ok false).
Proof.
  intros X F O. assert (G : exists n, order x = Some n) by (unfold internal in X; destruct (order x); [eauto|now destruct X]). destruct G as [n E].
  assert (K : forall l0, incl l0 l -> (layer_in x l0 = Ok true /\ exists e, In e l0 /\ order e = order x) \/ (layer_in x l0 = Ok false /\ ~ exists e, In e l0 /\ order e = order x)).
  { rewrite Forall_forall in F. induction l0 as [|e l0 IH]; intros I; [right; split; [reflexivity|intros (e & [] & _)]|]. cbn [layer_in].
    destruct (Nat.eqb_spec (which e) (which x)) as [W|W].
    - left. split; [reflexivity|]. exists e. split; [now left|]. f_equal. apply O; [right; apply I; now left|now left|exact W].
    - assert (Ie : internal e) by (apply F, I; now left). unfold internal in Ie. destruct (order e) as [m|] eqn:Em; [|now destruct Ie].
      unfold layer_eq. rewrite Em. unfold internal_cmp. rewrite E. cbn [bind]. destruct (Z.eqb_spec m n) as [->|N].
      + left. split; [reflexivity|]. exists e. split; [now left|congruence].
      + destruct (IH (fun y Hy => I y (or_intror Hy))) as [[A B]|[A B]]; [left|right]; (split; [exact A|]).
        * destruct B as (e' & B1 & B2). exists e'. split; [now right|congruence].
        * intros (e' & [<-|B1] & B2); [congruence|]. apply B. exists e'. split; [assumption|congruence]. }
  destruct (K l (incl_refl l)) as [[A B]|[A B]]; rewrite A; split; auto.
  - tauto.
  - split; [discriminate|tauto].
Qed.
