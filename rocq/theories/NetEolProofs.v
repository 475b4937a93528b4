(** Netlists with other line ends. *)
From Verif Require Import PyBase QcLib NumModel IpcModel IpcSpec IpcProofs NetEolSpec.
Import ListNotations.
Open Scope list_scope.

Lemma split_end l e s : one_line l -> an_end e -> (e = ret -> forall s', s <> ascii_of_nat 10 :: s') -> splitlines (l ++ e ++ s) = l :: splitlines s.
Proof.
  intros L E N. induction L as [|c l Hc Hl IH]; cbn [app].
  - destruct E as [ -> | [ -> | -> ] ]; cbn [app lf crlf ret splitlines].
    + destruct s; reflexivity.
    + reflexivity.
    + specialize (N eq_refl). change (is_break (ascii_of_nat 13)) with true. destruct s as [|d s]; [reflexivity|].
      destruct (ceq_spec d nl) as [->|D]; [exfalso; exact (N s eq_refl)|]. rewrite Bool.andb_false_r. reflexivity.
  - cbn [splitlines]. apply no_break_is in Hc. rewrite Hc, IH. reflexivity.
Qed.
Lemma split_last l : one_line l -> l <> [] -> splitlines l = [l].
Proof.
  induction 1 as [|c l Hc Hl IH]; intros N; [congruence|]. cbn [splitlines]. apply no_break_is in Hc. rewrite Hc.
  destruct l as [|d l]; [reflexivity|]. rewrite IH by discriminate. reflexivity.
Qed.
Lemma no_head l e r : one_line l -> an_end e -> (l = [] -> e <> lf) -> forall s', l ++ e ++ r <> ascii_of_nat 10 :: s'.
Proof.
  intros L E N s' H. destruct l as [|c l].
  - destruct E as [ -> | [ -> | -> ] ]; [now apply N|discriminate H|discriminate H].
  - cbn [app] in H. injection H as -> _. inversion L as [|? ? X]; subst. discriminate X.
Qed.
Lemma split_text ls last : Forall (fun l => one_line (fst l) /\ an_end (snd l)) ls -> clear_ends ls -> one_line last ->
  splitlines (text_with ls ++ last) = map fst ls ++ match last with [] => [] | _ => [last] end.
Proof.
  intros F C La. induction F as [|[l e] ls [L E] F IH]; cbn [fst snd] in *.
  - cbn [text_with map List.concat app]. destruct last as [|c last]; [reflexivity|]. apply split_last; [exact La|discriminate].
  - unfold text_with. cbn [map List.concat fst snd]. fold (text_with ls). rewrite <- !app_assoc.
    assert (C' : clear_ends ls) by (destruct ls as [|[l' e'] ls]; [exact Logic.I|apply C]).
    rewrite split_end; [rewrite (IH C'); reflexivity|exact L|exact E|]. intros R.
    destruct ls as [|[l' e'] ls].
    + cbn [text_with map List.concat app]. intros s' H. subst last. inversion La as [|? ? X]; subst. discriminate X.
    + inversion F as [|? ? [L' E'] _]; subst. cbn [fst snd] in *. unfold text_with. cbn [map List.concat fst snd]. rewrite <- !app_assoc.
      apply no_head; [exact L'|exact E'|]. intros N. apply C; [reflexivity|exact N].
Qed.

Lemma same_end_clear e ls : an_end e -> clear_ends (map (fun l => (l, e)) ls).
Proof.
  intros E. induction ls as [|l ls IH]; [exact Logic.I|]. cbn [map]. destruct ls as [|l' ls]; [exact Logic.I|].
  split; [intros -> _; discriminate|exact IH].
Qed.

Lemma ends_do_not_matter ls last : Forall (fun l => one_line (fst l) /\ an_end (snd l)) ls -> clear_ends ls -> one_line last -> last <> [] ->
  parse_raw (text_with ls) = parse_raw (file_of (map fst ls)) /\
  parse_raw (text_with ls ++ last) = parse_raw (file_of (map fst ls ++ [last])).
Proof.
  intros F C La N. assert (F' : Forall one_line (map fst ls)) by (apply Forall_map; eapply Forall_impl; [|exact F]; now intros l [? _]).
  unfold parse_raw. rewrite !splitlines_file by (try (apply Forall_app; split; [|constructor; [|constructor]]); assumption).
  rewrite (split_text ls last F C La). rewrite <- (app_nil_r (text_with ls)), (split_text ls [] F C (Forall_nil _)), !app_nil_r.
  destruct last; [congruence|]. auto.
Qed.
Lemma one_convention e ls : an_end e -> Forall one_line ls -> parse_raw (text_with (map (fun l => (l, e)) ls)) = parse_raw (file_of ls).
Proof.
  intros E F. pose proof (same_end_clear e ls E) as C.
  assert (F' : Forall (fun l => one_line (fst l) /\ an_end (snd l)) (map (fun l => (l, e)) ls)) by (apply Forall_map; eapply Forall_impl; [|exact F]; auto).
  destruct (ends_do_not_matter _ (T "x") F' C) as [H _]; [repeat constructor|discriminate|]. rewrite H. f_equal. f_equal.
  rewrite map_map. cbn [fst]. apply map_id.
Qed.
