(** C175: comparison of primitives. *)
From Coq Require Import Reals List Bool Lra.
From Verif Require Import GeomModel CacheModel CacheSpec CacheProofs PrimEqModel PrimEqSpec PrimEqProofs.
Import ListNotations.
Open Scope R_scope.
Open Scope list_scope.

(** New primitives with the same attributes are equal, *)
Theorem C175_new_partial : forall a b, is_new a -> is_new b -> looks_like a b -> prim_eq a b.
Proof. exact unmeasured_eq. Qed.
Print Assumptions C175_new_partial.
(** and so are primitives that have come to the same attributes in different ways and have both been measured (the
    operations that leave an outdated box behind, C51, aside). *)
Theorem C175_measured_partial : forall k a b l l', is_new a -> is_new b ->
  Forall (fun o => exceptional k o = false) l -> Forall (fun o => exceptional k o = false) l' ->
  looks_like (run k l a) (run k l' b) -> prim_eq (run k (l ++ [Read]) a) (run k (l' ++ [Read]) b).
Proof.
  intros k a b l l' Na Nb F F' Lk. unfold run at 1 2. rewrite !fold_left_app. cbn [fold_left step].
  apply measured_eq; [now apply run_good, new_good..|exact Lk].
Qed.
Print Assumptions C175_measured_partial.
(** Equal primitives have the same attributes. *)
Theorem C175_tells : forall a b, prim_eq a b -> looks_like a b.
Proof. intros a b (P & N & A & D & Q & R0 & U & _). repeat split; assumption. Qed.
Print Assumptions C175_tells.
(** But a primitive of any class whose box has been asked for once is no longer equal to what it was. *)
Theorem C175_measured_refuted : forall k s, is_new s -> prim_eq s s /\ looks_like (run k [Read] s) s /\ ~ prim_eq s (run k [Read] s).
Proof. exact one_measured. Qed.
Print Assumptions C175_measured_refuted.

Definition disc (x : R) : st := create (fun _ => (x, 2)) (fun a => match a with Diameter => 2 | _ => 0 end) (Round 0) Clockwise SingleQuadrant 0 (Some Metric).
(** A disc that was measured and moved, and one that was put in its place: both measured, they are equal. *)
Example C175_ex : is_new (disc 1) /\ is_new (disc 4) /\ Forall (fun o => exceptional Circle o = false) [Read; SetPoint Position (4, 2)] /\
  prim_eq (run Circle [Read; SetPoint Position (4, 2); Read] (disc 1)) (run Circle [SetPoint Position (4, 2); Read] (disc 1)).
Proof.
  split; [reflexivity|]. split; [reflexivity|]. split; [repeat constructor|].
  apply (C175_measured_partial Circle (disc 1) (disc 1) [Read; SetPoint Position (4, 2)] [SetPoint Position (4, 2)]); [reflexivity|reflexivity|repeat constructor|repeat constructor|].
  repeat split.
Qed.
Example C175_ex_differ : ~ prim_eq (disc 1) (disc 4).
Proof. intros (P & _). specialize (P Position). cbn in P. injection P as P. lra. Qed.
