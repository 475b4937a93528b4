(** Proofs that the objects of a Gerber file hold what its image shows. *)
From Verif Require Import ObjectSpec GerberEvalProofs HeapProofs GerberConvProofs.
Open Scope list_scope.
Open Scope Qc_scope.

(** ** The objects themselves *)
Definition vseg_obj (s : vseg) (ap : HeapModel.loc) : pobj :=
  match s with
  | VLine a b _ _ u => new_line a b ap (Some u)
  | VArc a b c _ _ _ _ u => new_arc a b c ap (Some u)
  end.
Definition vseg_ap (s : vseg) : option obj := match s with VLine _ _ ap _ _ => ap | VArc _ _ _ _ ap _ _ _ => ap end.
Definition is_seg (h : heap) (l : HeapModel.loc) (s : vseg) : Prop :=
  exists m, hget h l = Some (vseg_obj s m) /\
    hget h m = Some (match vseg_ap s with Some o => obj_of o | None => no_aperture end).
Definition is_mark (h : heap) (l : HeapModel.loc) (m : mark) : Prop :=
  match m with
  | Stroke s => is_seg h l s
  | Fill segs _ u => exists ls, hget h l = Some (new_region ls (Some u)) /\ Forall2 (is_seg h) ls segs
  | Stamp o => hget h l = Some (obj_of o)
  end.
Lemma is_shape_holds h l o : hget h l = Some (obj_of o) -> holds_shape h l o.
Proof.
  intros H. unfold holds_shape, hole_at, units_at, maybe_point_at, point_at, number_at, attr. rewrite H. unfold obj_of.
  destruct (o_shape o); cbn; destruct (o_pos o); cbn; auto 10.
Qed.
Lemma is_seg_holds h l s : is_seg h l s -> holds_segment h l s.
Proof.
  intros (m & H & A). assert (AP : holds_aperture h l (vseg_ap s)).
  { exists m. unfold attr. rewrite H. split; [now destruct s|]. destruct (vseg_ap s); [now apply is_shape_holds|]. unfold number_at, attr. now rewrite A. }
  destruct s as [a b ap pol u|a b c d ap q pol u]; cbn [holds_segment vseg_ap] in *;
    unfold units_at, maybe_point_at, point_at, attr; rewrite H; cbn; [auto|]. destruct c; auto 6.
Qed.
Lemma Forall2_weaken {A B} (P Q : A -> B -> Prop) l m : (forall a b, P a b -> Q a b) -> Forall2 P l m -> Forall2 Q l m.
Proof. intros H. induction 1; constructor; auto. Qed.
Lemma is_mark_holds h l m : is_mark h l m -> holds h l m.
Proof.
  destruct m as [s|segs pol u|o]; cbn [is_mark holds].
  - apply is_seg_holds.
  - intros (ls & H & F). unfold units_at, attr. rewrite H. split; [reflexivity|]. exists ls. split; [reflexivity|].
    eapply Forall2_weaken; [|exact F]. apply is_seg_holds.
  - apply is_shape_holds.
Qed.

(** ** Reading *)
Section place.
  Context (h : heap) (st : store).
  Hypothesis STORE : forall l o, fetch st l = Some o -> hget h l = Some (obj_of o).
  Definition sits (n : nat) (os : list pobj) : Prop := forall k o, nth_error os k = Some o -> hget h (n + k)%nat = Some o.
  Lemma sits_app n a b : sits n (a ++ b) -> sits n a /\ sits (n + List.length a)%nat b.
  Proof.
    intros S. split; intros k o H.
    - apply S. rewrite nth_error_app1; [exact H|]. apply nth_error_Some. congruence.
    - rewrite <- Nat.add_assoc. apply S. rewrite nth_error_app2 by lia. replace (List.length a + k - List.length a)%nat with k by lia. exact H.
  Qed.
  Lemma place_seg_is n s : seg_ok (List.length st) s -> sits n (fst (place_seg n s)) -> is_seg h (snd (place_seg n s)) (deref_seg st s).
  Proof.
    intros O S. unfold place_seg in *. apply seg_ok_ap in O.
    assert (A : vseg_ap (deref_seg st s) = deref_ap st (seg_ap s)) by now destruct s.
    assert (B : forall l, vseg_obj (deref_seg st s) l = seg_obj s l) by now destruct s.
    destruct (seg_ap s) as [l|]; cbn [fst snd] in *.
    - exists l. split; [rewrite B, <- (S 0%nat _ eq_refl); f_equal; lia|]. rewrite A. cbn [deref_ap]. cbn in O.
      destruct (fetch st l) as [o|] eqn:F; [now apply STORE|]. exfalso. apply nth_error_None in F. lia.
    - exists n. split; [rewrite B, <- (S 1%nat _ eq_refl); f_equal; lia|]. rewrite A. cbn [deref_ap]. rewrite <- (S 0%nat _ eq_refl). f_equal. lia.
  Qed.
  Lemma place_segs_is l : Forall (seg_ok (List.length st)) l -> forall n, sits n (fst (place_segs n l)) ->
    Forall2 (is_seg h) (snd (place_segs n l)) (map (deref_seg st) l).
  Proof.
    induction 1 as [|s l O F IH]; intros n S; [constructor|]. cbn [place_segs] in *.
    pose proof (place_seg_is n s O) as PS. destruct (place_seg n s) as [os x]. specialize (IH (n + List.length os)%nat).
    destruct (place_segs (n + List.length os)%nat l) as [os' xs]. cbn [fst snd map] in *. apply sits_app in S as [S1 S2]. constructor; auto.
  Qed.
  Lemma place_is n p m : prim_ok (List.length st) p -> sits n (fst (place n p)) -> deref st p = Some m -> is_mark h (snd (place n p)) m.
  Proof.
    intros O S D. destruct p as [s|l pol u|l]; cbn [place deref prim_ok] in *.
    - injection D as <-. now apply place_seg_is.
    - injection D as <-. pose proof (place_segs_is l O n) as PS. destruct (place_segs n l) as [os xs]. cbn [fst snd] in *.
      apply sits_app in S as [S1 S2]. exists xs. split; [|now apply PS]. rewrite <- (S2 0%nat _ eq_refl). f_equal. lia.
    - destruct (fetch st l) as [o|] eqn:F; [|discriminate]. injection D as <-. cbn [snd is_mark]. now apply STORE.
  Qed.
  Lemma place_all_is ps : Forall (prim_ok (List.length st)) ps -> forall n ms, sits n (fst (place_all n ps)) ->
    map (deref st) ps = map Some ms -> Forall2 (is_mark h) (snd (place_all n ps)) ms.
  Proof.
    induction 1 as [|p ps O F IH]; intros n ms S D; [destruct ms; [constructor|discriminate]|]. destruct ms as [|m ms]; [discriminate|].
    cbn [map] in D. injection D as D1 D2. cbn [place_all] in *. pose proof (place_is n p m O) as PP. destruct (place n p) as [os x].
    specialize (IH (n + List.length os)%nat ms). destruct (place_all (n + List.length os)%nat ps) as [os' xs]. cbn [fst snd] in *.
    apply sits_app in S as [S1 S2]. constructor; auto.
  Qed.
End place.
Lemma opened_is fc l f ms : open_file fc l = Ok f -> image fc [] l = Some ms -> Forall2 (is_mark (f_heap f)) (f_prims f) ms.
Proof.
  intros H IM. unfold open_file in H. destruct (evaluate_all fc g_init l) as [[st l']|] eqn:E; [|discriminate]. cbn [bind] in H. apply ok_inj in H. subst f.
  cbn [f_heap f_prims]. destruct (evaluate_all_extends fc l _ _ _ valid_init E) as [V _].
  destruct (evaluate_image fc l [] g_init st l' (inv_init fc) E) as (_ & ms' & IM' & SH). rewrite IM in IM'. injection IM' as <-. cbn in SH.
  unfold roots_of. apply place_all_is with (st := g_store st).
  - intros k o F. unfold heap_of, hget. rewrite nth_error_app1; [now apply map_nth_error|]. rewrite map_length. apply nth_error_Some. unfold fetch in F. congruence.
  - apply V.
  - intros k o N. unfold heap_of, hget. rewrite nth_error_app2; rewrite map_length; [|lia].
    replace (List.length (g_store st) + k - List.length (g_store st))%nat with k by lia. exact N.
  - exact SH.
Qed.

(** ** Conversion *)
Lemma rescaled_obj_of u o : rescaled u (obj_of o) = obj_of (enlarge_obj (factor u) u o).
Proof. unfold obj_of, enlarge_obj. cbn [o_shape o_pos o_units]. destruct (o_shape o); cbn [enlarge_shape]; destruct (o_pos o) as [[x y]|]; reflexivity. Qed.
Lemma rescaled_seg u s l : rescaled u (vseg_obj s l) = vseg_obj (enlarge_seg (factor u) u s) l.
Proof. destruct s as [[] [] ap pol w|[] [] c d ap q pol w]; [reflexivity|]. destruct c as [[]|]; reflexivity. Qed.
Lemma rescale_refs k ls : map (rescale_value k) (map VRef ls) = map VRef ls.
Proof. induction ls; cbn; congruence. Qed.
Lemma rescaled_region u ls w : rescaled u (new_region ls (Some w)) = new_region ls (Some u).
Proof. unfold rescaled, new_region. cbn. now rewrite rescale_refs. Qed.
Section convert.
  Context (u : unit_) (h h' : heap).
  Definition changed (m : HeapModel.loc) : Prop := hget h' m = option_map (rescaled u) (hget h m).
  Lemma seg_parts s m : In m (parts (vseg_obj s m)).
  Proof. destruct s as [[] [] ap pol w|[] [] c d ap q pol w]; [now left|]. destruct c as [[]|]; now left. Qed.
  Lemma seg_converted l s : is_seg h l s -> (forall m, part_of h l m -> changed m) -> is_seg h' l (enlarge_seg (factor u) u s).
  Proof.
    intros (m & L & A) C. exists m. split.
    - rewrite (C l (Part_self h l)), L. cbn [option_map]. now rewrite rescaled_seg.
    - assert (P : part_of h l m) by (eapply Part_sub; [exact L|apply seg_parts|constructor]).
      rewrite (C m P), A. cbn [option_map]. assert (E : vseg_ap (enlarge_seg (factor u) u s) = omap (enlarge_obj (factor u) u) (vseg_ap s)) by now destruct s.
      rewrite E. destruct (vseg_ap s) as [o|]; cbn [omap]; [now rewrite rescaled_obj_of|reflexivity].
  Qed.
  Lemma mark_converted l m : is_mark h l m -> (forall x, part_of h l x -> changed x) -> is_mark h' l (enlarge (factor u) u m).
  Proof.
    destruct m as [s|segs pol w|o]; cbn [is_mark enlarge]; intros H C.
    - now apply seg_converted.
    - destruct H as (ls & L & F). exists ls. split; [rewrite (C l (Part_self h l)), L; cbn [option_map]; now rewrite rescaled_region|].
      assert (S : forall x, In x ls -> forall y, part_of h x y -> changed y).
      { intros x X y P. apply C. eapply Part_sub; [exact L| |exact P]. cbn. rewrite app_nil_r. apply in_flat_map. exists (VRef x). split; [now apply in_map|now left]. }
      clear L C. induction F as [|x s ls segs X F IH]; [constructor|]. cbn [map]. constructor.
      + apply seg_converted; [exact X|]. apply S. now left.
      + apply IH. intros y Y. apply S. now right.
    - rewrite (C l (Part_self h l)), H. cbn [option_map]. now rewrite rescaled_obj_of.
  Qed.
End convert.
Lemma converted_is fc w l f f' ms : all_in_unit w l -> no_single_segment fc l -> open_file fc l = Ok f -> image fc [] l = Some ms ->
  file_to (other w) f = Ok f' -> Forall2 (is_mark (f_heap f')) (f_prims f') (map (enlarge (factor (other w)) (other w)) ms).
Proof.
  intros A N H IM C. pose proof (open_file_in fc w l f A H) as I. pose proof (opened_is fc l f ms H IM) as M.
  destruct (file_to_ok w f I) as (f1 & E & U & P & S & CA). rewrite C in E. apply ok_inj in E. subst f1. destruct I as (U0 & S0 & P0 & R0 & A0).
  assert (NS : no_single_lists (f_heap f)).
  { unfold open_file in H. destruct (evaluate_all fc g_init l) as [[st l']|] eqn:E; [|discriminate]. cbn [bind] in H. apply ok_inj in H. subst f. cbn [f_heap].
    destruct (evaluate_image fc l [] g_init st l' (inv_init fc) E) as (_ & ms' & IM' & SH). apply heap_of_single. intros s pol u X.
    apply (N ms' (deref_seg (g_store st) s) pol u IM'). apply (in_map (deref (g_store st))) in X. fold (shown st) in X. rewrite SH in X. cbn in X.
    apply in_map_iff in X as (m & E1 & J). injection E1 as ->. exact J. }
  destruct (conversion_exact (other w) (f_heap f) (f_prims f) P0 NS R0) as (h' & E' & X); [now rewrite other_other|].
  rewrite CA in E'. apply ok_inj in E'. subst h'. destruct X as (_ & X & _). rewrite P.
  assert (Y : forall x, In x (f_prims f) -> forall y, part_of (f_heap f) x y -> changed (other w) (f_heap f) (f_heap f') y)
    by (intros x Hx y Hy; exact (X x y Hx Hy)).
  clear - M Y. induction M as [|x m xs ms M F IH]; [constructor|]. cbn [map]. constructor.
  - eapply mark_converted; [exact M|]. apply Y. now left.
  - apply IH. intros y Hy. apply Y. now right.
Qed.
