(** Drill hits converted to another unit one by one. *)
From Verif Require Import PyBase QcLib NumModel GerberText ExcellonModel ExcellonFile HitConvSpec HitConvProofs.
Open Scope list_scope.
Open Scope Qc_scope.

(** ** C160 *)
(** The claim: holes and slots of tools in the other unit are converted by their to_inch or to_metric, one after another. *)
Definition each_claim : Prop := forall u s hs,
  (forall h, In h hs -> complete h /\ exists l t, uses h l /\ nth_error s l = Some t /\ xs_units (t_set t) <> u) ->
  exists s' hs', conv_hits u s hs = Ok (s', hs') /\ Forall2 (changed u) hs hs'.
(** It holds if no two of them have the same tool. *)
Theorem C160_apart_partial : forall u s hs,
  (forall h, In h hs -> complete h /\ exists l t, uses h l /\ nth_error s l = Some t /\ xs_units (t_set t) <> u) ->
  (forall i j g h l, nth_error hs i = Some g -> nth_error hs j = Some h -> uses g l -> uses h l -> i = j) ->
  exists s' hs', conv_hits u s hs = Ok (s', hs') /\ Forall2 (changed u) hs hs'.
Proof. exact conv_hits_apart. Qed.
Print Assumptions C160_apart_partial.
(** In general the first hit of each tool is converted, with the tool, and all other hits stay as they are. *)
Theorem C160_first_of_each_tool : forall u s hs s' hs', conv_hits u s hs = Ok (s', hs') ->
  List.length hs' = List.length hs /\
  (forall i h, nth_error hs i = Some h -> exists h', nth_error hs' i = Some h' /\
     (first_of_tool u s (firstn i hs) h -> changed u h h') /\ (~ first_of_tool u s (firstn i hs) h -> h' = h)) /\
  (forall l t, nth_error s l = Some t -> exists t', nth_error s' l = Some t' /\
     ((exists h, In h hs /\ uses h l) -> tool_in u t t') /\ (~ (exists h, In h hs /\ uses h l) -> t' = t)).
Proof. intros u s hs. exact (conv_hits_each u hs s). Qed.
Print Assumptions C160_first_of_each_tool.
Theorem C160_no_exception : forall u s hs, (forall h, In h hs -> complete h /\ exists l t, uses h l /\ nth_error s l = Some t) ->
  exists s' hs', conv_hits u s hs = Ok (s', hs').
Proof. intros u s hs. exact (conv_hits_ok u hs s). Qed.
Print Assumptions C160_no_exception.

(** Two holes and a slot of two tools *)
Definition two_tools : list tool := [mkTool 1 None None None None (Some 1) None None 0 x_default; mkTool 2 None (Some 1) None None (Some (zq 2)) None None 0 x_default].
Definition three_hits : list hit := [Hit (Some 0%nat) (1, zq 2); Hit (Some 0%nat) (1, zq 2); Slot (Some 1%nat) (Some 1, Some 0) (Some (zq 2), Some (zq 3)) false].
Lemma three_hits_ok : forall h, In h three_hits -> complete h /\ exists l t, uses h l /\ nth_error two_tools l = Some t /\ xs_units (t_set t) <> Metric.
Proof.
  intros h [<-|[<-|[<-|[]]]]; split; try exact I.
  - exists 0%nat. eexists. split; [reflexivity|]. split; [reflexivity|discriminate].
  - exists 0%nat. eexists. split; [reflexivity|]. split; [reflexivity|discriminate].
  - exists (1, 0), (zq 2, zq 3). split; reflexivity.
  - exists 1%nat. eexists. split; [reflexivity|]. split; [reflexivity|discriminate].
Qed.
Example C160_ex : match conv_hits Metric two_tools three_hits with
  | Ok (s, [Hit _ p; Hit _ q; Slot _ (Some a, Some b) (Some c, Some d) _]) =>
      map this [fst p; snd p; fst q; snd q; a; b; c; d] = [127 # 5; 254 # 5; 1; 2; 127 # 5; 0; 254 # 5; 381 # 5]%Q /\ map (fun t => option_map this (t_diam t)) s = [Some (127 # 5); Some (254 # 5)]%Q
  | _ => False
  end.
Proof. vm_compute. split; reflexivity. Qed.
Example C160_ex_apart : exists h g, three_hits = [h; h; g] /\ forall i j x y l, nth_error [h; g] i = Some x -> nth_error [h; g] j = Some y -> uses x l -> uses y l -> i = j.
Proof.
  do 2 eexists. split; [reflexivity|]. intros [|[|[|i]]] [|[|[|j]]] x y l A B U V; try reflexivity; try discriminate A; try discriminate B; injection A as <-; injection B as <-; cbn in U, V; congruence.
Qed.
(** The second hole of the first tool stays in inches. *)
Theorem C160_shared_refuted : ~ each_claim.
Proof.
  intros H. destruct (H Metric two_tools three_hits three_hits_ok) as (s' & hs' & E & F).
  assert (V : match conv_hits Metric two_tools three_hits with Ok (_, [_; Hit _ p; _]) => this (fst p) | _ => 0%Q end = 1%Q) by (vm_compute; reflexivity).
  rewrite E in V. inversion F as [|? ? ? l1 _ F1]; subst. inversion F1 as [|? h2 ? l2 C2 F2]; subst. inversion F2 as [|? ? ? l3 _ F3]; subst. inversion F3; subst.
  inversion C2; subst. vm_compute in V. discriminate V.
Qed.
Print Assumptions C160_shared_refuted.
