(** Checking points. *)
From Verif Require Import PyBase QcLib ValidModel ValidSpec.
Import ListNotations.
Open Scope list_scope.

Lemma number_is v : is_number v = true <-> number v.
Proof.
  unfold number. destruct v; cbn; split; intros H; try discriminate H; try reflexivity; try (eauto; fail).
  all: destruct H as [[? H]|[[? H]|[? H]]]; discriminate H.
Qed.
Lemma valid_iff v : (validate_coordinates v = Ok tt <-> point v) /\ (validate_coordinates v = Ok tt \/ validate_coordinates v = Err TypeError).
Proof.
  assert (Q : forall w, w <> PNone -> point w -> exists x y, w = PSeq [x; y] /\ number x /\ number y) by (intros w N [E|E]; [contradiction|exact E]).
  destruct v as [|b|n|q|t|l|]; cbn [validate_coordinates py_len bind].
  - split; [|auto]. split; [left; reflexivity|reflexivity].
  - split; [|auto]. split; [discriminate|]. intros H. apply Q in H as (x & y & H & _); discriminate.
  - split; [|auto]. split; [discriminate|]. intros H. apply Q in H as (x & y & H & _); discriminate.
  - split; [|auto]. split; [discriminate|]. intros H. apply Q in H as (x & y & H & _); discriminate.
  - assert (K : (if negb (List.length t =? 2)%nat then Err TypeError else check_each (elements (PText t))) = Err TypeError) by (destruct t as [|a [|b [|c t]]]; reflexivity).
    rewrite K. split; [|auto]. split; [discriminate|]. intros H. apply Q in H as (x & y & H & _); discriminate.
  - destruct l as [|x [|y [|z l]]]; cbn - [is_number];
      try (split; [|auto]; split; [discriminate|]; intros H; apply Q in H as (x' & y' & H & _); discriminate).
    pose proof (number_is x) as X. pose proof (number_is y) as Y. destruct (is_number x), (is_number y); (split; [|auto]); split; try discriminate; try reflexivity;
      intros H; try (apply Q in H as (x' & y' & H & A & B); [|discriminate]; injection H as <- <-; exfalso; try (apply X in A; discriminate A); apply Y in B; discriminate B).
    right. exists x, y. split; [reflexivity|]. split; [now apply X|now apply Y].
  - split; [|auto]. split; [discriminate|]. intros H. apply Q in H as (x & y & H & _); discriminate.
Qed.
Lemma err_stays ps : fold_left (fun r p => do _ <- r; validate_coordinates p) ps (Err TypeError) = Err TypeError.
Proof. induction ps; [reflexivity|exact IHps]. Qed.
Lemma points_iff s ps : (validate_points s ps = Ok tt <-> point s /\ Forall point ps) /\ (validate_points s ps = Ok tt \/ validate_points s ps = Err TypeError).
Proof.
  assert (K : (fold_left (fun r p => do _ <- r; validate_coordinates p) ps (Ok tt) = Ok tt <-> Forall point ps) /\
    (fold_left (fun r p => do _ <- r; validate_coordinates p) ps (Ok tt) = Ok tt \/ fold_left (fun r p => do _ <- r; validate_coordinates p) ps (Ok tt) = Err TypeError)).
  { induction ps as [|p ps IH]; [cbn; split; [split; [constructor|reflexivity]|auto]|]. cbn [fold_left bind]. destruct (valid_iff p) as [V [E|E]]; rewrite E in *.
    - split; [|apply IH]. rewrite (proj1 IH). split; [intros F; constructor; [now apply V|exact F]|intros F; now inversion F].
    - rewrite err_stays. split; [|auto]. split; [discriminate|]. intros F. inversion F; subst. apply V. assumption. }
  unfold validate_points. destruct (valid_iff s) as [V [E|E]]; rewrite E in *; cbn [bind].
  - split; [|apply K]. rewrite (proj1 K). split; [intros F; split; [now apply V|exact F]|intros [_ F]; exact F].
  - split; [|auto]. split; [discriminate|]. intros [P _]. now apply V.
Qed.
