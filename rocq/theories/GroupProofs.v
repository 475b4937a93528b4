(** Proofs about the position of a macro group. *)
From Verif Require Import PyBase QcLib NumModel GerberText HeapModel HeapSpec HeapProofs GroupModel GroupSpec.
Open Scope list_scope.
Open Scope Qc_scope.

Lemma setattr_get n v w : forall a, getattr n a = Some w -> forall m, getattr m (setattr n v a) = if String.eqb m n then Some v else getattr m a.
Proof.
  induction a as [|[k x] a IH]; intros G m; [discriminate|]. cbn [getattr setattr] in *. destruct (String.eqb k n) eqn:E.
  - cbn [getattr]. destruct (String.eqb k m) eqn:E'.
    + apply String.eqb_eq in E, E'. subst. now rewrite String.eqb_refl.
    + destruct (String.eqb m n) eqn:E2; [|reflexivity]. apply String.eqb_eq in E, E2. subst. now rewrite String.eqb_refl in E'.
  - cbn [getattr]. rewrite (IH G). destruct (String.eqb k m) eqn:E'; [|reflexivity]. apply String.eqb_eq in E'. subst. now rewrite E.
Qed.
Lemma setattr_names n v a : map fst (setattr n v a) = map fst a.
Proof. induction a as [|[k x] a IH]; [reflexivity|]. cbn. destruct (String.eqb k n); cbn; [reflexivity|now rewrite IH]. Qed.
Lemma setattr_twice n v w a : setattr n w (setattr n v a) = setattr n w a.
Proof.
  induction a as [|[k x] a IH]; [reflexivity|]. cbn [setattr]. destruct (String.eqb k n) eqn:E; cbn [setattr]; rewrite E; [reflexivity|now rewrite IH].
Qed.

(** The result, spelled out. *)
Definition place (h : heap) (l : loc) (ms : list loc) (p d : Qc * Qc) : heap :=
  hset (apply (moved d) (mem ms) h) l (put "_position" (vpoint p)).
Lemma set_position_place fuel h l p ms new : is_group h l p ms -> (List.length ms <= fuel)%nat ->
  set_position fuel l new h = Ok (place h l ms new (fst new - fst p, snd new - snd p)).
Proof.
  intros (o & G & S & M & ND & NI & (t & ls & P) & MV) FU. unfold set_position. rewrite G.
  assert (D : (match getattr "_position" (po_attrs o) with Some VNone => Ok new | Some (VSeq _ [VNum x; VNum y]) => Ok (fst new - x, snd new - y)
               | Some _ => Err TypeError | None => Err AttributeError end : res (Qc * Qc)) = Ok (fst new - fst p, snd new - snd p)).
  { destruct S as [[-> ->]|[t' ->]]; [|reflexivity]. f_equal. destruct new as [x y]. cbn [fst snd]. f_equal; ring. }
  rewrite D. cbn [bind]. unfold inner_list. rewrite P, mapM_refs. cbn [bind].
  assert (C : contents o = ls) by (unfold contents; rewrite P; apply links_refs). rewrite C in M.
  pose proof (offset_members (fst new - fst p, snd new - snd p) h ls ms M ND MV fuel [] FU) as E.
  rewrite (apply_ext _ (mem []) (fun _ => false)) in E by reflexivity. rewrite apply_none in E. rewrite E by (intros x []). cbn [bind].
  rewrite app_nil_r. reflexivity.
Qed.
Lemma place_placed h l p ms new d : is_group h l p ms -> placed h l ms new d (place h l ms new d).
Proof.
  intros (o & G & S & M & ND & NI & P & MV). unfold place. split; [|split].
  - intros m I. rewrite hget_hset_other by (intros ->; contradiction). rewrite apply_get. apply mem_in in I. now rewrite I.
  - intros m I N. rewrite hget_hset_other by exact N. rewrite apply_get. destruct (mem ms m) eqn:E; [|reflexivity]. apply mem_in in E. contradiction.
  - intros o' G'. rewrite G in G'. injection G' as <-. exists (put "_position" (vpoint new) o).
    assert (NM : mem ms l = false) by (destruct (mem ms l) eqn:E; [apply mem_in in E; contradiction|reflexivity]).
    split; [rewrite hget_hset_same, apply_get, NM, G; reflexivity|]. split; [reflexivity|]. split; [reflexivity|]. split; [apply setattr_names|].
    assert (exists w, getattr "_position" (po_attrs o) = Some w) as [w W] by (destruct S as [[-> _]|[t ->]]; eauto).
    intro a. exact (setattr_get "_position" (vpoint new) w _ W a).
Qed.
Lemma moved_twice d e o : moved e (moved d o) = moved (fst d + fst e, snd d + snd e) o.
Proof.
  unfold moved. cbn [po_units po_conv po_attrs]. f_equal. rewrite map_map. apply map_ext. intros [n v]. cbn [fst snd].
  destruct (in_dec string_dec n point_names) as [I|I]; cbn [fst snd]; destruct (in_dec string_dec n point_names) as [J|J]; try contradiction; [|reflexivity].
  f_equal. destruct v as [| |t [|[|x| | |] [|[|y| | |] [|]]]| |]; try reflexivity. cbn [moved_value fst snd].
  do 2 f_equal; [f_equal; ring|]. do 2 f_equal. ring.
Qed.
Lemma moved_movable d o : movable o -> movable (moved d o).
Proof.
  intros (N & A & B). assert (GA : forall a, getattr a (po_attrs (moved d o)) = option_map (fun v => if in_dec string_dec a point_names then moved_value d v else v) (getattr a (po_attrs o))).
  { intro a. change (moved d o) with (pmoved d point_names o). rewrite pmoved_attrs. clear. induction (po_attrs o) as [|[k v] l IH]; [reflexivity|].
    cbn [map getattr fst snd]. destruct (String.eqb k a) eqn:E; [|exact IH]. apply String.eqb_eq in E. subst. reflexivity. }
  split; [|split].
  - change (moved d o) with (pmoved d point_names o). rewrite pmoved_attrs, map_map. cbn [fst]. exact N.
  - intros a v I G. rewrite GA in G. destruct (getattr a (po_attrs o)) as [w|] eqn:W; [|discriminate]. cbn [option_map] in G.
    destruct (A a w I W) as (t & x & y & ->). destruct (in_dec string_dec a point_names); [|contradiction]. cbn in G. injection G as <-. eauto.
  - intros v G. rewrite GA in G. destruct (getattr "primitives" (po_attrs o)) as [w|] eqn:W; [|discriminate]. cbn in G. injection G as <-. now apply B.
Qed.
Lemma members_change h h' : forall ls ms, members h ls ms ->
  (forall m o, In m ms -> hget h m = Some o -> exists o', hget h' m = Some o' /\ contents o' = contents o) -> members h' ls ms.
Proof.
  intros ls ms M. induction M as [|l o ls ms1 ms2 G M1 IH1 M2 IH2]; intro H; [constructor|].
  destruct (H l o (or_introl eq_refl) G) as (o' & G' & C). apply (Members_cons h' l o' ls ms1 ms2); [exact G'| |].
  - rewrite C. apply IH1. intros m om I. apply H. right. apply in_or_app. now left.
  - apply IH2. intros m om I. apply H. right. apply in_or_app. now right.
Qed.
Lemma put_contents v o : contents (put "_position" v o) = contents o.
Proof.
  unfold contents. cbn [put po_attrs]. enough (E : getattr "primitives" (setattr "_position" v (po_attrs o)) = getattr "primitives" (po_attrs o)) by now rewrite E.
  induction (po_attrs o) as [|[k x] a IH]; [reflexivity|]. cbn [setattr]. destruct (String.eqb k "_position") eqn:E; cbn [getattr].
  - apply String.eqb_eq in E. subst. reflexivity.
  - now rewrite IH.
Qed.
Lemma place_group h l p ms new d : is_group h l p ms -> is_group (place h l ms new d) l new ms.
Proof.
  intro IG. pose proof (place_placed h l p ms new d IG) as (P1 & P2 & P3). destruct IG as (o & G & S & M & ND & NI & (t & ls & P) & MV).
  destruct (P3 o G) as (o' & G' & _ & _ & _ & A). exists o'. split; [exact G'|].
  assert (C : contents o' = contents o) by (unfold contents; now rewrite (A "primitives")).
  split; [right; exists true; rewrite A; reflexivity|]. split; [|split; [exact ND|split; [exact NI|split; [exists t, ls; now rewrite A|]]]].
  - rewrite C. apply (members_change h); [exact M|]. intros m om I Gm. exists (moved d om). split; [rewrite P1, Gm by exact I; reflexivity|apply moved_contents].
  - intros m om I Gm. rewrite P1 in Gm by exact I. destruct (hget h m) as [om'|] eqn:Em; [|discriminate]. injection Gm as <-. apply moved_movable. eauto.
Qed.
Lemma place_place h l p ms q r d e : is_group h l p ms -> place (place h l ms q d) l ms r e = place h l ms r (fst d + fst e, snd d + snd e).
Proof.
  intros (o & G & _ & _ & _ & NI & _). assert (NM : mem ms l = false) by (destruct (mem ms l) eqn:E; [apply mem_in in E; contradiction|reflexivity]).
  apply nth_error_ext. intro m. change (hget (place (place h l ms q d) l ms r e) m = hget (place h l ms r (fst d + fst e, snd d + snd e)) m).
  unfold place. destruct (Nat.eq_dec m l) as [->|N].
  - rewrite !hget_hset_same, !apply_get, NM, hget_hset_same, apply_get, NM, G. cbn [option_map]. f_equal. unfold put. cbn [po_units po_conv po_attrs]. now rewrite setattr_twice.
  - rewrite !hget_hset_other, !apply_get, hget_hset_other, apply_get by exact N. destruct (mem ms m); [|reflexivity].
    destruct (hget h m); [|reflexivity]. cbn [option_map]. now rewrite moved_twice.
Qed.
Lemma C54_moves_lemma fuel h l p ms new : is_group h l p ms -> (List.length ms <= fuel)%nat ->
  exists h', set_position fuel l new h = Ok h' /\ placed h l ms new (fst new - fst p, snd new - snd p) h' /\ is_group h' l new ms.
Proof.
  intros G F. eexists. split; [exact (set_position_place fuel h l p ms new G F)|]. split; [exact (place_placed h l p ms _ _ G)|exact (place_group h l p ms _ _ G)].
Qed.
Lemma C54_final_lemma fuel h l p ms ps new : is_group h l p ms -> (List.length ms <= fuel)%nat ->
  set_positions fuel l (ps ++ [new]) h = set_position fuel l new h.
Proof.
  unfold set_positions. revert h p. induction ps as [|q ps IH]; intros h p G F; cbn [app foldM].
  - rewrite (set_position_place fuel h l p ms) by assumption. reflexivity.
  - rewrite (set_position_place fuel h l p ms q) by assumption. cbn [bind].
    rewrite (IH _ q (place_group _ _ _ _ _ _ G) F), (set_position_place _ _ _ _ _ _ (place_group _ _ _ _ _ _ G) F), (set_position_place _ _ _ _ _ _ G F).
    f_equal. rewrite (place_place _ _ p) by exact G. f_equal. cbn [fst snd]. f_equal; ring.
Qed.
