(** Descriptions of settings. *)
From Verif Require Import PyBase SettingsModel SettingsSpec SettingsProofs SetStrModel.
From Verif Require DumpProofs.
From Coq Require Import Lia.
Import ListNotations.
Open Scope list_scope.

Definition angle_ok (s : settings) : Prop := angle_units s = S "degrees" \/ angle_units s = S "radians".
Definition sound (s : settings) : Prop := all_valid s /\ angle_ok s.

Lemma ctor_sound n u zs f zr a s : file_settings n u zs f zr a = Ok s -> sound s.
Proof.
  intros H. split; [now apply ctor_valid in H|]. apply ctor_inv in H as (_ & _ & _ & H & s0 & _ & ->). exact H.
Qed.
Lemma item_angle s k v : angle_ok s -> angle_ok (fst (setitem s k v)).
Proof.
  unfold angle_ok. intros A. unfold setitem.
  repeat match goal with |- context [if teq ?a ?b then _ else _] => destruct (teq a b) end; settle_in; simpl in *; auto.
Qed.
Lemma assign_sound s a : sound s -> documented a -> sound (run_assign s a).
Proof.
  intros [(N & U & Z & F & O) A] D. destruct a as [v|v|k v]; cbn [run_assign documented] in *.
  - split; [|exact A]. unfold all_valid, opposite. cbn. destruct D as [-> | ->]; cbn; auto 12.
  - split; [|exact A]. unfold all_valid, opposite. cbn. destruct D as [-> | ->]; cbn; auto 12.
  - split; [apply setitem_valid; unfold all_valid; auto|now apply item_angle].
Qed.
Lemma run_sound ops : forall s, Forall documented ops -> sound s -> sound (fold_left run_assign ops s).
Proof. induction ops as [|a ops IH]; intros s F G; [exact G|]. inversion F; subst. cbn [fold_left]. apply IH; [assumption|]. now apply assign_sound. Qed.

Lemma last_cut (x y b d : text) : List.length b = List.length d -> x ++ b = y ++ d -> x = y /\ b = d.
Proof.
  intros L H. assert (K : List.length x = List.length y) by (apply (f_equal (@List.length ascii)) in H; rewrite !app_length in H; lia).
  revert y K H. induction x as [|c x IH]; intros [|c' y] K H; try discriminate K; [auto|]. cbn in H. injection H as -> H. destruct (IH y) as [-> ->]; auto.
Qed.
Lemma format_inj v w : val_len v = 2%nat -> val_len w = 2%nat -> show_val v = show_val w -> v = w.
Proof.
  assert (L : forall l, List.length (T "(" ++ show_items l ++ T ")") = 2%nat -> List.length l = 2%nat -> False).
  { intros [|a [|b [|c l]]] H K; try discriminate K. cbn [show_items] in H. rewrite !app_length in H. cbn in H. lia. }
  destruct v as [s|l], w as [t|m]; cbn [val_len show_val]; intros V W H.
  - congruence.
  - exfalso. apply (L m); congruence.
  - exfalso. apply (L l); congruence.
  - apply app_inv_head in H. apply app_inv_tail in H. destruct l as [|a [|b [|c l]]]; try discriminate V. destruct m as [|a' [|b' [|c' m]]]; try discriminate W.
    cbn [show_items] in H. change (T ", " ++ ?r) with (","%char :: T " " ++ r) in H.
    apply DumpProofs.cut_eq in H as [A H]; [|DumpProofs.no_char|DumpProofs.no_char]. apply app_inv_head in H. apply DumpProofs.int_inj in A. apply DumpProofs.int_inj in H. congruence.
Qed.
Lemma word_cut v w (P : val -> Prop) r r' : (forall x, P x -> ~ In " "%char (show_val x)) -> (forall x y, P x -> P y -> show_val x = show_val y -> x = y) ->
  P v -> P w -> show_val v ++ T " " ++ r = show_val w ++ T " " ++ r' -> v = w /\ r = r'.
Proof. intros N J V W H. change (T " " ++ ?r) with (" "%char :: r) in H. apply DumpProofs.cut_eq in H as [A B]; auto. Qed.
Lemma two_words (a b : string) v w r r' : ~ In " "%char (T a) -> ~ In " "%char (T b) -> T a <> T b ->
  v = S a \/ v = S b -> w = S a \/ w = S b -> show_val v ++ T " " ++ r = show_val w ++ T " " ++ r' -> v = w /\ r = r'.
Proof.
  intros Na Nb D V W H. apply (word_cut v w (fun x => x = S a \/ x = S b)); auto.
  - intros x [-> | ->]; assumption.
  - intros x y [-> | ->] [-> | ->] E; cbn in E; try reflexivity; exfalso; auto.
Qed.
Ltac word := let X := fresh in intros X; cbn in X; repeat destruct X as [X|X]; try discriminate X; exact X.
Lemma str_inj s s' : sound s -> sound s' -> settings_str s = settings_str s' ->
  notation s = notation s' /\ units s = units s' /\ zero_suppression s = zero_suppression s' /\ format s = format s' /\ angle_units s = angle_units s'.
Proof.
  intros [(N & U & Z & F & _) A] [(N' & U' & Z' & F' & _) A'] H. unfold settings_str in H. cbn [valid_value] in *. apply app_inv_head in H.
  apply (two_words "inch" "metric") in H as [Eu H]; [|word|word|discriminate|exact U|exact U'].
  apply (two_words "absolute" "incremental") in H as [En H]; [|word|word|discriminate|exact N|exact N'].
  apply (two_words "leading" "trailing") in H as [Ez H]; [|word|word|discriminate|exact Z|exact Z'].
  apply last_cut in H as [Ef Ea]; [|destruct A as [-> | ->], A' as [-> | ->]; reflexivity]. apply format_inj in Ef; [|exact F|exact F'].
  repeat split; try assumption. destruct A as [X|X], A' as [Y|Y]; rewrite X, Y in *; try reflexivity; discriminate Ea.
Qed.
Lemma str_iff s s' : sound s -> sound s' -> (settings_str s = settings_str s' <-> settings_eq s s' = true).
Proof.
  intros G G'. unfold settings_eq. rewrite !Bool.andb_true_iff, !val_eqb_true. split.
  - intros H. apply str_inj in H as (? & ? & ? & ? & ?); auto.
  - intros ((((E1 & E2) & E3) & E4) & E5). unfold settings_str. now rewrite E1, E2, E3, E4, E5.
Qed.
Lemma str_tells : forall n u zs f zr a s0 ops n' u' zs' f' zr' a' s0' ops',
  file_settings n u zs f zr a = Ok s0 -> Forall documented ops ->
  file_settings n' u' zs' f' zr' a' = Ok s0' -> Forall documented ops' ->
  let s := fold_left run_assign ops s0 in let s' := fold_left run_assign ops' s0' in
  settings_str s = settings_str s' <-> settings_eq s s' = true.
Proof. intros. apply str_iff; apply run_sound; auto; eapply ctor_sound; eassumption. Qed.
