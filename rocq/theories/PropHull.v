(** C84 to C86: the convex hull. *)
From Verif Require Import PyBase GeomModel GeomSpec HullModel HullSpec HullProofs.
From Coq Require Import Lra.
Import ListNotations.
Open Scope R_scope.
Open Scope list_scope.

Theorem C84_convex_hull : forall points : list pt, ~ on_a_line points -> exists corners, convex_hull points = Ok corners /\ is_hull points corners.
Proof. exact hull_full. Qed.
Print Assumptions C84_convex_hull.
(** Being a hull leaves no choice of the corners. *)
Theorem C84_unique : forall points l1 l2 : list pt, is_hull points l1 -> is_hull points l2 -> forall c, In c l1 <-> In c l2.
Proof. exact hull_unique. Qed.
Print Assumptions C84_unique.
Definition square : list pt := [(1, 1); (0, 0); (1 / 2, 1 / 2); (1, 0); (0, 1); (1, 1 / 2); (0, 0)].
Example C84_example : ~ on_a_line square.
Proof. intro H. specialize (H (0, 0) (1, 0) (1, 1)). unfold cross, square in H. cbn [In fst snd] in H. assert (0 = 1); [|lra]. rewrite <- H; auto 8. lra. Qed.
Ltac all_in := repeat match goal with H : In _ (_ :: _) |- _ => destruct H as [H|H] | H : In _ [] |- _ => destruct H end.
Example C84_example_hull : is_hull square [(0, 0); (1, 0); (1, 1); (0, 1)].
Proof.
  constructor.
  - intros c H. all_in; subst; cbn [In square]; tauto.
  - intros u v p H P. unfold square, sides, combine, app in *. all_in; injection H as <- <-; subst; (split; [intro E; injection E; lra|unfold cross; cbn [fst snd]; lra]).
  - intros w p P. destruct w as [x y], p as [px py].
    pose proof (P (0, 0) (1, 0) ltac:(cbn; tauto)) as P1. pose proof (P (1, 0) (1, 1) ltac:(cbn; tauto)) as P2.
    pose proof (P (1, 1) (0, 1) ltac:(cbn; tauto)) as P3. pose proof (P (0, 1) (0, 0) ltac:(cbn; tauto)) as P4. unfold cross in P1, P2, P3, P4. cbn [fst snd] in *.
    assert (M : 0 <= px <= 1 /\ 0 <= py <= 1) by lra. unfold along. destruct (Rle_dec 0 x), (Rle_dec 0 y).
    + exists (1, 1). split; [cbn; tauto|cbn [fst snd]; nra].
    + exists (1, 0). split; [cbn; tauto|cbn [fst snd]; nra].
    + exists (0, 1). split; [cbn; tauto|cbn [fst snd]; nra].
    + exists (0, 0). split; [cbn; tauto|cbn [fst snd]; nra].
  - intros c H. all_in; subst; [exists (-1, -1)|exists (1, -1)|exists (1, 1)|exists (-1, 1)]; intros p P N; unfold square in P; all_in; subst; try congruence; unfold along; cbn [fst snd]; lra.
  - repeat constructor; cbn [In]; intro H; repeat destruct H as [H|H]; try (injection H; lra); exact H.
Qed.
(** Clockwise, with a point missing, or with one too many it is none. *)
Example C84_example_clockwise : ~ is_hull square [(0, 0); (0, 1); (1, 1); (1, 0)].
Proof. intros [_ H _ _ _]. destruct (H (0, 0) (0, 1) (1, 1)) as [_ X]; [cbn; tauto|cbn; tauto|]. unfold cross in X. cbn [fst snd] in X. lra. Qed.
Example C84_example_missing : ~ is_hull square [(0, 0); (1, 0); (1, 1)].
Proof. intros [_ H _ _ _]. destruct (H (1, 1) (0, 0) (0, 1)) as [_ X]; [cbn; tauto|cbn; tauto|]. unfold cross in X. cbn [fst snd] in X. lra. Qed.
Example C84_example_middle : ~ is_hull square [(0, 0); (1, 0); (1, 1 / 2); (1, 1); (0, 1)].
Proof.
  intros [_ _ _ H _]. destruct (H (1, 1 / 2)) as (w & W); [cbn; tauto|].
  assert (A : along w (1, 0) < along w (1, 1 / 2)) by (apply W; [cbn; tauto|intro E; injection E; lra]).
  assert (B : along w (1, 1) < along w (1, 1 / 2)) by (apply W; [cbn; tauto|intro E; injection E; lra]).
  unfold along in *. cbn [fst snd] in *. lra.
Qed.

(** C85: a list of points without an area is refused.  The full statement,
      forall points, on_a_line points -> convex_hull points = Err GenericException,
    is false: points on a line which is not upright give the empty list. *)
Theorem C85_refused_partial : forall points : list pt,
  (List.length points < 3)%nat \/ (forall p q, In p points -> In q points -> fst p = fst q) -> convex_hull points = Err GenericException.
Proof. intros points [H|H]; [exact (hull_short points H)|exact (hull_upright points H)]. Qed.
Print Assumptions C85_refused_partial.
Theorem C85_on_a_line : forall points : list pt, (3 <= List.length points)%nat -> on_a_line points ->
  (exists p q, In p points /\ In q points /\ fst p <> fst q) -> convex_hull points = Ok [].
Proof. exact hull_flat. Qed.
Print Assumptions C85_on_a_line.
Definition row : list pt := [(0, 0); (1, 2); (3, 6); (2, 4)].
Example C85_example : (3 <= List.length row)%nat /\ on_a_line row /\ exists p q, In p row /\ In q row /\ fst p <> fst q.
Proof.
  split; [repeat constructor|]. split.
  - intros p q r P Q R. unfold row in *. all_in; subst; unfold cross; cbn [fst snd]; ring.
  - exists (0, 0), (1, 2). cbn. repeat split; auto.
Qed.
Theorem C85_refused_refuted : exists points : list pt, (3 <= List.length points)%nat /\ on_a_line points /\ convex_hull points <> Err GenericException.
Proof.
  exists row. destruct C85_example as (A & B & C). split; [exact A|]. split; [exact B|]. rewrite (C85_on_a_line row A B C). discriminate.
Qed.
Print Assumptions C85_refused_refuted.
Example C85_upright : forall p q, In p [(2, 0); (2, 5); (2, 1)] -> In q [(2, 0); (2, 5); (2, 1)] -> fst p = fst q.
Proof. intros p q P Q. all_in; subst; reflexivity. Qed.

(** C86: the outline of a line drawn with a rectangle is that of what the rectangle covers on its way. *)
Theorem C86_line_outline : forall a b w h, 0 < w -> 0 < h ->
  exists corners, line_vertices a b w h = Ok corners /\ NoDup corners /\
    (forall c, In c corners -> stroke (segment a b) (oblong w h) c) /\
    forall p, stroke (segment a b) (oblong w h) p <-> forall u v, In (u, v) (sides corners) -> 0 <= cross u v p.
Proof. exact line_outline. Qed.
Print Assumptions C86_line_outline.
Example C86_example : stroke (segment (0, 0) (3, 2)) (oblong 2 1) (2, 2 / 3).
Proof. exists (3 / 2, 1), (1 / 2, - (1 / 3)). split; [exists (1 / 2); split; [lra|cbn [fst snd]; f_equal; lra]|]. split; [unfold oblong; cbn [fst snd]; lra|cbn [fst snd]; f_equal; lra]. Qed.
