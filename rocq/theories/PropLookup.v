(** C177: looking for a layer among the layers of a board. *)
From Verif Require Import PyBase LookupModel LookupSpec LookupProofs.
From Coq Require Import Lia.
Import ListNotations.
Open Scope list_scope.

(** A layer is found if it comes after layers of its own sort only. *)
Theorem C177_found_partial : forall x l r, Forall (fun e => same_sort e x) l -> layer_in x (l ++ x :: r) = Ok true.
Proof. exact in_found. Qed.
Print Assumptions C177_found_partial.
(** Among layers none of which is internal, exactly those in the list are found. *)
Theorem C177_plain_partial : forall x l, ~ internal x -> Forall (fun e => ~ internal e) l -> one_object (x :: l) ->
  (layer_in x l = Ok true <-> In x l).
Proof. exact in_plain. Qed.
Print Assumptions C177_plain_partial.
(** Among internal layers, those are found whose number is in the list. *)
Theorem C177_internal_partial : forall x l, internal x -> Forall internal l -> one_object (x :: l) ->
  (layer_in x l = Ok true <-> exists e, In e l /\ order e = order x) /\ (layer_in x l = Ok true \/ layer_in x l = Ok false).
Proof. exact in_internal. Qed.
Print Assumptions C177_internal_partial.
(** Whenever a layer of the other sort comes first, looking raises TypeError, whether the layer is there or not. *)
Theorem C177_found_refuted : forall x l r e, ~ same_sort e x -> which e <> which x ->
  Forall (fun a => layer_eq a x = Ok false /\ which a <> which x) l -> layer_in x (l ++ e :: r) = Err TypeError.
Proof. exact in_error. Qed.
Print Assumptions C177_found_refuted.
Definition top : layer := mkLayer 0 None.
Definition bottom : layer := mkLayer 1 None.
Definition inner (k : nat) (n : Z) : layer := mkLayer k (Some n).
(** Another internal layer with the same number is taken for the layer itself. *)
Theorem C177_other_refuted : exists x l, one_object (x :: l) /\ ~ In x l /\ layer_in x l = Ok true.
Proof.
  exists (inner 2 1), [inner 3 1]. split; [|split; [|reflexivity]].
  - intros a b [<-|[<-|[]]] [<-|[<-|[]]] E; try reflexivity; discriminate E.
  - intros [E|[]]. discriminate E.
Qed.
Print Assumptions C177_other_refuted.

(** The order of two internal layers is that of their numbers: one of the three, and the other operators follow. *)
Theorem C177_order : forall n k m,
  (internal_cmp Lt n (inner k m) = Ok true <-> (n < m)%Z) /\ (internal_cmp Gt n (inner k m) = Ok true <-> (m < n)%Z) /\
  (internal_cmp Eq n (inner k m) = Ok true <-> n = m) /\ (internal_cmp Ne n (inner k m) = Ok true <-> n <> m) /\
  (internal_cmp Le n (inner k m) = Ok true <-> (n <= m)%Z) /\ (internal_cmp Ge n (inner k m) = Ok true <-> (m <= n)%Z).
Proof.
  intros n k m. cbn.
  assert (K : forall b : bool, Ok b = Ok true <-> b = true) by (intros b; split; [now injection 1|now intros ->]).
  rewrite !K, Bool.negb_true_iff, Z.eqb_eq, Z.eqb_neq, !Z.ltb_lt, !Z.leb_le. tauto.
Qed.
Print Assumptions C177_order.

Example C177_ex : layer_in bottom [top; bottom; inner 2 1] = Ok true /\ layer_in (inner 2 1) [inner 3 2; inner 2 1] = Ok true /\
  layer_in (inner 2 1) [top; inner 2 1; bottom] = Err TypeError /\ layer_in bottom [top; inner 2 1; bottom] = Err TypeError /\
  one_object [bottom; top; bottom] /\ one_object [inner 2 1; inner 3 2; inner 2 1].
Proof.
  repeat (split; [reflexivity|]). split.
  - intros a b [<-|[<-|[<-|[]]]] [<-|[<-|[<-|[]]]] E; try reflexivity; discriminate E.
  - intros a b [<-|[<-|[<-|[]]]] [<-|[<-|[<-|[]]]] E; try reflexivity; discriminate E.
Qed.
