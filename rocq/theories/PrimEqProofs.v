(** Comparison of primitives. *)
From Coq Require Import Reals List Bool.
From Verif Require Import GeomModel CacheModel CacheSpec CacheProofs PrimEqModel PrimEqSpec.
Import ListNotations.
Open Scope R_scope.

Lemma box_same k a b : looks_like a b -> cos_t a = cos_t b -> sin_t a = sin_t b -> box_of k a = box_of k b.
Proof.
  intros (P & N & A & D & Q & Ro & U) C S. destruct k; unfold box_of, the_arc; rewrite ?P, ?N, ?A, ?D, ?Q, ?Ro, ?C, ?S; reflexivity.
Qed.
Lemma read_cache k s : good k s -> cache (snd (read k s)) = Some (box_of k s).
Proof. intros [_ [E|E]]; unfold read; rewrite E; cbn; [reflexivity|exact E]. Qed.
Lemma read_rest k s : looks_like (snd (read k s)) s /\ cos_t (snd (read k s)) = cos_t s /\ sin_t (snd (read k s)) = sin_t s.
Proof. unfold read. destruct (cache s); cbn; repeat split. Qed.
Lemma measured_eq k a b : good k a -> good k b -> looks_like a b -> prim_eq (snd (read k a)) (snd (read k b)).
Proof.
  intros Ga Gb Lk. assert (C : cos_t a = cos_t b /\ sin_t a = sin_t b).
  { destruct Ga as [[C1 S1] _], Gb as [[C2 S2] _]. destruct Lk as (_ & _ & _ & _ & _ & R0 & _). split; congruence. }
  destruct C as [C S]. pose proof (box_same k a b Lk C S) as B. pose proof (read_cache k a Ga) as Ka. pose proof (read_cache k b Gb) as Kb.
  destruct (read_rest k a) as ((Pa & Na & Aa & Da & Qa & Ra & Ua) & Ca & Sa). destruct (read_rest k b) as ((Pb & Nb & Ab & Db & Qb & Rb & Ub) & Cb & Sb).
  destruct Lk as (P & N & A & D & Q & R0 & U). unfold prim_eq. repeat split; intros; congruence.
Qed.
Lemma unmeasured_eq a b : is_new a -> is_new b -> looks_like a b -> prim_eq a b.
Proof.
  unfold is_new. intros -> -> (P & N & A & D & Q & R0 & U). cbn in *. unfold prim_eq. cbn. rewrite R0. repeat split; try assumption.
Qed.
Lemma one_measured k s : is_new s -> prim_eq s s /\ looks_like (snd (read k s)) s /\ ~ prim_eq s (snd (read k s)).
Proof.
  intros N. assert (E : cache s = None) by (rewrite N; reflexivity). split; [unfold prim_eq; repeat split|]. split; [apply read_rest|].
  intros (_ & _ & _ & _ & _ & _ & _ & _ & _ & C). unfold read in C. rewrite E in C. cbn in C. congruence.
Qed.
