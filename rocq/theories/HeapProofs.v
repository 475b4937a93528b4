(** Proofs about unit conversion of object graphs. *)
From Verif Require Import PyBase QcLib NumModel GerberText HeapModel HeapSpec.
Open Scope Qc_scope.

Lemma unit_eqb_spec a b : unit_eqb a b = true <-> a = b.
Proof. destruct a, b; cbn; split; congruence. Qed.
Lemma unit_other v w : v <> w -> v = other w.
Proof. destruct v, w; intros D; try reflexivity; now destruct D. Qed.
Lemma other_neq u : other u <> u.
Proof. destruct u; discriminate. Qed.
Lemma other_other u : other (other u) = u.
Proof. now destruct u. Qed.
Lemma to_unit_factor u q : to_unit u q = factor u * q.
Proof. destruct u; cbn [to_unit factor]; unfold mm_per_inch; [unfold Qcdiv; ring|ring]. Qed.

(** ** Lists *)
Lemma nth_error_ext {A} : forall (l l' : list A), (forall n, nth_error l n = nth_error l' n) -> l = l'.
Proof.
  induction l as [|a l IH]; intros [|b l'] H; auto.
  - specialize (H O). discriminate.
  - specialize (H O). discriminate.
  - f_equal; [specialize (H O); now injection H|]. apply IH. intros n. exact (H (Datatypes.S n)).
Qed.
Lemma hset_length : forall h l f, List.length (hset h l f) = List.length h.
Proof. induction h as [|o h IH]; intros [|l] f; cbn; auto. Qed.
Lemma hget_hset_same : forall h l f, hget (hset h l f) l = option_map f (hget h l).
Proof. unfold hget. induction h as [|o h IH]; intros [|l] f; cbn; auto. Qed.
Lemma hget_hset_other : forall h l f m, m <> l -> hget (hset h l f) m = hget h m.
Proof.
  unfold hget. induction h as [|o h IH]; intros [|l] f [|m] N; cbn; auto; congruence.
Qed.
Lemma hget_some h l : (l < List.length h)%nat <-> exists o, hget h l = Some o.
Proof.
  unfold hget. rewrite <- nth_error_Some. destruct (nth_error h l) as [o|]; split; intros H; try congruence; eauto.
  destruct H as [o H]. discriminate.
Qed.

(** Apply [f] to the objects selected by [S]. *)
Fixpoint apply_from (k : nat) (f : pobj -> pobj) (S : loc -> bool) (h : heap) : heap :=
  match h with [] => [] | o :: h' => (if S k then f o else o) :: apply_from (Datatypes.S k) f S h' end.
Definition apply (f : pobj -> pobj) (S : loc -> bool) (h : heap) : heap := apply_from 0 f S h.
Lemma apply_from_length f S : forall h k, List.length (apply_from k f S h) = List.length h.
Proof. induction h; intros k; cbn; auto. Qed.
Lemma apply_length f S h : List.length (apply f S h) = List.length h.
Proof. apply apply_from_length. Qed.
Lemma apply_from_get f S : forall h k l, hget (apply_from k f S h) l = if S (k + l)%nat then option_map f (hget h l) else hget h l.
Proof.
  unfold hget. induction h as [|o h IH]; intros k [|l]; cbn [apply_from nth_error].
  - now destruct (S _).
  - now destruct (S _).
  - rewrite Nat.add_0_r. now destruct (S k).
  - rewrite IH. now rewrite Nat.add_succ_r.
Qed.
Lemma apply_get f S h l : hget (apply f S h) l = if S l then option_map f (hget h l) else hget h l.
Proof. unfold apply. now rewrite apply_from_get. Qed.

(** ** Values *)
Definition clinks (v : value) : list loc :=
  match v with
  | VRef l => [l]
  | VSeq _ (VRef a :: b :: r) => links (VSeq true (VRef a :: b :: r))
  | _ => []
  end.
Lemma links_refs ls t : links (VSeq t (map VRef ls)) = ls.
Proof. cbn [links]. induction ls as [|l ls IH]; [reflexivity|]. cbn [map flat_map app links]. now rewrite IH. Qed.
Lemma rescale_refs f ls t : rescale_value f (VSeq t (map VRef ls)) = VSeq t (map VRef ls).
Proof. cbn [rescale_value]. f_equal. induction ls as [|l ls IH]; [reflexivity|]. cbn [map rescale_value]. now rewrite IH. Qed.
Lemma number_links l : Forall number l -> flat_map links l = [].
Proof. induction 1 as [|v l [q ->] _ IH]; [reflexivity|]. exact IH. Qed.
Lemma mapM_nums u l : Forall number l -> mapM (conv_num u) l = Ok (map (rescale_value (factor u)) l).
Proof.
  induction 1 as [|v l [q ->] _ IH]; [reflexivity|]. cbn [mapM conv_num bind map rescale_value]. rewrite IH. cbn [bind]. now rewrite to_unit_factor.
Qed.
Lemma conv_tuple_point u v : is_point v -> conv_tuple u v = Ok (rescale_value (factor u) v).
Proof.
  intros (a & b & l & -> & F). unfold conv_tuple. rewrite (mapM_nums u _ F). reflexivity.
Qed.
Lemma mapM_points u l : Forall is_point l -> mapM (conv_tuple u) l = Ok (map (rescale_value (factor u)) l).
Proof.
  induction 1 as [|v l P _ IH]; [reflexivity|]. cbn [mapM map]. rewrite (conv_tuple_point u v P). cbn [bind]. now rewrite IH.
Qed.
Lemma mapM_refs ls : mapM as_ref (map VRef ls) = Ok ls.
Proof. induction ls as [|l ls IH]; [reflexivity|]. cbn [map mapM as_ref bind]. now rewrite IH. Qed.
Lemma point_links v : is_point v -> links v = [].
Proof. intros (a & b & l & -> & F). cbn [links]. now apply number_links. Qed.
Lemma points_links l : Forall is_point l -> flat_map links l = [].
Proof. induction 1 as [|v l P _ IH]; [reflexivity|]. cbn [flat_map]. now rewrite (point_links v P), IH. Qed.

Lemma plan_proper u n v : proper n v -> exists t, plan u v = Ok t /\ Forall (fun l => l < n)%nat (clinks v) /\
  match t with
  | Convert ls => ls = clinks v /\ rescale_value (factor u) v = v
  | Replace v' => v' = rescale_value (factor u) v /\ clinks v = []
  | Skip => rescale_value (factor u) v = v /\ clinks v = []
  end.
Proof.
  intros P. destruct P as [|q|v P|a b l F|l L|ls F].
  - exists Skip. repeat split; constructor.
  - exists (Replace (VNum (to_unit u q))). repeat split; [constructor|]. cbn [rescale_value]. now rewrite to_unit_factor.
  - destruct P as (a & b & l & -> & F). exists (Replace (VSeq true (map (rescale_value (factor u)) (a :: b :: l)))).
    pose proof F as F'. inversion F' as [|? ? [qa ->] F1]; subst. inversion F1 as [|? ? [qb ->] F2]; subst.
    split; [cbn [plan]; rewrite (mapM_nums u _ F); reflexivity|]. repeat split. constructor.
  - exists (Replace (VSeq false (map (rescale_value (factor u)) (a :: b :: l)))).
    inversion F as [|? ? (a1 & a2 & al & -> & Fa) F1]; subst.
    split; [cbn [plan]; rewrite (mapM_points u _ F); reflexivity|]. repeat split. constructor.
  - exists (Convert [l]). repeat split. cbn. auto.
  - destruct ls as [|a [|b ls]].
    + exists Skip. repeat split; constructor.
    + exists Skip. repeat split; constructor.
    + exists (Convert (a :: b :: ls)). rewrite rescale_refs. cbn [map clinks].
      assert (E : links (VSeq true (map VRef (a :: b :: ls))) = a :: b :: ls) by apply links_refs. cbn [map] in E.
      split; [|split; [rewrite E; exact F|split; [now rewrite E|reflexivity]]].
      cbn [plan map]. change (VRef a :: VRef b :: map VRef ls) with (map VRef (a :: b :: ls)). rewrite mapM_refs. reflexivity.
Qed.
Lemma proper_rescale f n v : proper n v -> proper n (rescale_value f v).
Proof.
  assert (PN : forall l, Forall number l -> Forall number (map (rescale_value f) l)).
  { induction 1 as [|v' l [q ->] _ IH]; constructor; auto. now exists (f * q). }
  assert (PP : forall v, is_point v -> is_point (rescale_value f v)).
  { intros v' (a & b & l & -> & F). exists (rescale_value f a), (rescale_value f b), (map (rescale_value f) l).
    split; [reflexivity|]. exact (PN _ F). }
  intros P. destruct P as [|q|v P|a b l F|l L|ls F].
  - constructor. - constructor.
  - apply Proper_point. auto.
  - cbn [rescale_value map]. apply Proper_points. change (Forall is_point (map (rescale_value f) (a :: b :: l))).
    apply Forall_map. eapply Forall_impl; [|exact F]. auto.
  - now constructor.
  - rewrite rescale_refs. now constructor.
Qed.
Lemma clinks_rescale f v : clinks (rescale_value f v) = clinks v.
Proof.
  assert (L : forall v, links (rescale_value f v) = links v).
  { fix IH 1. intros [| | t l | |]; try reflexivity. cbn [rescale_value links].
    induction l as [|x l IHl]; [reflexivity|]. cbn [map flat_map]. now rewrite IH, IHl. }
  destruct v as [| | t l | |]; try reflexivity. destruct l as [|x [|y l]]; try reflexivity.
  - now destruct x.
  - destruct x; try reflexivity. cbn [rescale_value map clinks]. 
    exact (L (VSeq true (VRef l0 :: y :: l))).
Qed.

(** ** Objects *)
Definition isrc (u : unit_) (o : pobj) : bool := match po_units o with Some w => negb (unit_eqb w u) | None => false end.
Lemma isrc_true u o : isrc u o = true <-> po_units o = Some (other u).
Proof.
  unfold isrc. destruct (po_units o) as [w|]; [|split; discriminate]. destruct w, u; cbn; split; congruence.
Qed.
Definition oclinks (o : pobj) : list loc :=
  flat_map (fun n => match getattr n (po_attrs o) with Some v => clinks v | None => [] end) (po_conv o).

(** The object with all lengths converted. *)
Definition full (u : unit_) (o : pobj) : pobj :=
  mkP (Some u) (po_conv o) (map (fun a => if in_dec string_dec (fst a) (po_conv o) then (fst a, rescale_value (factor u) (snd a)) else a) (po_attrs o)).
Lemma full_rescaled u o w : po_units o = Some w -> rescaled u o = full u o.
Proof. intros E. unfold rescaled. now rewrite E. Qed.
Lemma rescaled_none u o : po_units o = None -> rescaled u o = o.
Proof. intros E. unfold rescaled. now rewrite E. Qed.

(** [o] with the lengths named in [d] already converted. *)
Definition partial (u : unit_) (d : list string) (o : pobj) : pobj :=
  mkP (Some u) (po_conv o) (map (fun a => if in_dec string_dec (fst a) d then (fst a, rescale_value (factor u) (snd a)) else a) (po_attrs o)).
Lemma partial_all u o : partial u (po_conv o) o = full u o.
Proof. reflexivity. Qed.
Lemma partial_nil u o : partial u [] o = with_units u o.
Proof.
  unfold partial, with_units. f_equal. transitivity (map (fun a => a) (po_attrs o)); [|apply map_id]. apply map_ext. intros [n v]. reflexivity.
Qed.
Lemma getattr_map (f : string * value -> value) : forall a n, getattr n (map (fun p => (fst p, f p)) a) = option_map (fun v => f (n, v)) (getattr n a).
Proof.
  induction a as [|[m v] a IH]; intros n; [reflexivity|]. cbn [map getattr fst]. destruct (String.eqb_spec m n) as [->|N]; [reflexivity|apply IH].
Qed.
Lemma partial_attrs u d o : po_attrs (partial u d o) =
  map (fun p => (fst p, if in_dec string_dec (fst p) d then rescale_value (factor u) (snd p) else snd p)) (po_attrs o).
Proof. cbn [partial po_attrs]. apply map_ext. intros [n v]. cbn [fst snd]. destruct (in_dec _ _ _); reflexivity. Qed.
Lemma partial_getattr u d o n : getattr n (po_attrs (partial u d o)) =
  option_map (fun v => if in_dec string_dec n d then rescale_value (factor u) v else v) (getattr n (po_attrs o)).
Proof. rewrite partial_attrs. now rewrite (getattr_map (fun p => if in_dec string_dec (fst p) d then rescale_value (factor u) (snd p) else snd p)). Qed.
Lemma partial_oclinks u d o : oclinks (partial u d o) = oclinks o.
Proof.
  unfold oclinks. change (po_conv (partial u d o)) with (po_conv o). apply flat_map_ext. intros n. rewrite (partial_getattr u d o n). destruct (getattr n (po_attrs o)) as [v|]; [|reflexivity]. cbn [option_map]. destruct (in_dec _ _ _); [apply clinks_rescale|reflexivity].
Qed.
Lemma partial_proper u d n o : proper_obj n o -> proper_obj n (partial u d o).
Proof.
  intros (N1 & N2 & P). split; [exact N1|]. split.
  - rewrite partial_attrs, map_map. cbn [fst]. exact N2.
  - intros a A. cbn [partial po_conv] in A. destruct (P a A) as (v & G & PV).
    rewrite partial_getattr, G. cbn [option_map]. eexists. split; [reflexivity|]. destruct (in_dec _ _ _); [now apply proper_rescale|exact PV].
Qed.
Lemma partial_isrc u d o : isrc u (partial u d o) = false.
Proof. unfold isrc. cbn. now destruct u. Qed.
Lemma setattr_partial u d n v : forall a, NoDup (map fst a) -> ~ In n d -> getattr n a = Some v ->
  setattr n (rescale_value (factor u) v) (map (fun p => if in_dec string_dec (fst p) d then (fst p, rescale_value (factor u) (snd p)) else p) a)
  = map (fun p => if in_dec string_dec (fst p) (n :: d) then (fst p, rescale_value (factor u) (snd p)) else p) a.
Proof.
  induction a as [|[m w] a IH]; intros N D G; [discriminate|]. inversion N as [|? ? N1 N2]; subst. cbn [map fst snd getattr] in *.
  destruct (String.eqb_spec m n) as [->|MN].
  - injection G as ->. destruct (in_dec string_dec n d) as [I|_]; [contradiction|]. destruct (in_dec string_dec n (n :: d)) as [_|I]; [|exfalso; apply I; now left].
    cbn [setattr]. rewrite String.eqb_refl. f_equal. apply map_ext_in. intros [m' w'] I. cbn [fst snd].
    assert (m' <> n). { intros ->. apply N1. apply in_map_iff. now exists (n, w'). }
    destruct (in_dec string_dec m' d), (in_dec string_dec m' (n :: d)) as [K|K]; try reflexivity; exfalso; [apply K; now right|].
    destruct K as [K|K]; [congruence|contradiction].
  - assert (E : forall x y : string * value, setattr n (rescale_value (factor u) v) ((if in_dec string_dec m d then (m, rescale_value (factor u) w) else (m, w)) :: map (fun p => if in_dec string_dec (fst p) d then (fst p, rescale_value (factor u) (snd p)) else p) a)
      = (if in_dec string_dec m d then (m, rescale_value (factor u) w) else (m, w)) :: setattr n (rescale_value (factor u) v) (map (fun p => if in_dec string_dec (fst p) d then (fst p, rescale_value (factor u) (snd p)) else p) a)).
    { intros _ _. cbn [setattr]. destruct (in_dec string_dec m d); rewrite (proj2 (String.eqb_neq m n) MN); reflexivity. }
    rewrite (E (n, v) (n, v)). rewrite (IH N2 D G). f_equal.
    destruct (in_dec string_dec m d) as [K|K], (in_dec string_dec m (n :: d)) as [K'|K']; try reflexivity; exfalso; [apply K'; now right|].
    destruct K' as [K'|K']; [congruence|contradiction].
Qed.
Lemma put_partial u d n o v : NoDup (map fst (po_attrs o)) -> ~ In n d -> getattr n (po_attrs o) = Some v ->
  put n (rescale_value (factor u) v) (partial u d o) = partial u (n :: d) o.
Proof. intros N D G. unfold put, partial. cbn [po_units po_conv po_attrs]. f_equal. now apply setattr_partial. Qed.
Lemma skip_partial u d n o v : NoDup (map fst (po_attrs o)) -> getattr n (po_attrs o) = Some v -> rescale_value (factor u) v = v ->
  partial u (n :: d) o = partial u d o.
Proof.
  intros N G E. unfold partial. f_equal. apply map_ext_in. intros [m w] I. cbn [fst snd].
  destruct (in_dec string_dec m d) as [K|K], (in_dec string_dec m (n :: d)) as [K'|K']; try reflexivity.
  - exfalso. apply K'. now right.
  - destruct K' as [<-|K']; [|contradiction].
    assert (w = v) as ->; [|now rewrite E].
    clear - N G I. induction (po_attrs o) as [|[m' w'] a IH]; [destruct I|]. inversion N as [|? ? N1 N2]; subst. cbn [getattr] in G.
    destruct I as [I|I].
    + injection I as -> ->. rewrite String.eqb_refl in G. congruence.
    + destruct (String.eqb_spec m' n) as [->|_]; [|auto]. exfalso. apply N1. apply in_map_iff. now exists (n, w).
Qed.

(** ** Paths through the objects that still have to be converted *)
Definition graph := loc -> option (list loc).
Inductive path (g : graph) : loc -> loc -> Prop :=
| path_here l ls : g l = Some ls -> path g l l
| path_step l ls m x : g l = Some ls -> In m ls -> path g m x -> path g l x.
Definition without (S : loc -> bool) (g : graph) : graph := fun l => if S l then None else g l.

Lemma path_ext g g' : (forall l, g l = g' l) -> forall c x, path g c x -> path g' c x.
Proof. intros E c x H. induction H; [eapply path_here|eapply path_step]; rewrite <- ?E; eauto. Qed.
Lemma path_without g S c x : path (without S g) c x -> path g c x /\ S x = false.
Proof.
  unfold without. induction 1 as [l ls H|l ls m x H I P [IH1 IH2]]; destruct (S l) eqn:E; try discriminate.
  - split; [eapply path_here; eauto|auto].
  - split; [eapply path_step; eauto|exact IH2].
Qed.
Lemma path_split g S C : (forall x, S x = true <-> exists c, In c C /\ path g c x) ->
  forall c x, path g c x -> S x = true \/ path (without S g) c x.
Proof.
  intros HS c x P. assert (CL : forall y ls m z, S y = true -> g y = Some ls -> In m ls -> path g m z -> S z = true).
  { intros y ls m z Sy G I PZ. apply HS in Sy as (c0 & I0 & P0). apply HS. exists c0. split; [exact I0|].
    clear - P0 G I PZ. induction P0; [eapply path_step; eauto|eapply path_step; eauto]. }
  induction P as [l ls G|l ls m x G I P IH].
  - destruct (S l) eqn:E; [now left|right]. apply (path_here _ _ ls). unfold without. now rewrite E.
  - destruct IH as [IH|IH]; [now left|]. destruct (S l) eqn:E.
    + left. eapply CL; eauto.
    + right. eapply path_step; [unfold without; now rewrite E, G|eauto|exact IH].
Qed.
Lemma path_head g l ls x : g l = Some ls -> (path g l x <-> x = l \/ exists c, In c ls /\ path (without (Nat.eqb l) g) c x).
Proof.
  intros G. assert (A : forall c, path g c x -> path (without (Nat.eqb l) g) c x \/ x = l \/ exists c', In c' ls /\ path (without (Nat.eqb l) g) c' x).
  { intros c P. induction P as [y ys H|y ys m x H I P IH].
    - destruct (Nat.eqb_spec l y) as [->|N]; [right; now left|]. left. apply (path_here _ _ ys). unfold without.
      rewrite (proj2 (Nat.eqb_neq l y) N). exact H.
    - destruct IH as [IH|IH]; [|right; exact IH]. destruct (Nat.eqb_spec l y) as [->|N].
      + right. right. exists m. split; [|exact IH]. congruence.
      + left. eapply path_step; [unfold without; rewrite (proj2 (Nat.eqb_neq l y) N); exact H|exact I|exact IH]. }
  split.
  - intros P. destruct (A l P) as [P1|P1]; [|exact P1]. exfalso.
    inversion P1 as [? ? H|? ? ? ? H]; unfold without in H; rewrite Nat.eqb_refl in H; discriminate.
  - intros [->|(c & I & P)]; [eapply path_here; eauto|]. apply path_without in P as [P _]. eapply path_step; eauto.
Qed.

(** ** The graph of a heap *)
Definition node (u : unit_) (h : heap) : graph := fun l =>
  match hget h l with Some o => if isrc u o then Some (oclinks o) else None | None => None end.
Definition count (u : unit_) (h : heap) : nat := List.length (filter (isrc u) h).

Lemma proper_get h l o : proper_heap h -> hget h l = Some o -> proper_obj (List.length h) o.
Proof. intros P G. unfold proper_heap in P. rewrite Forall_forall in P. apply P. eapply nth_error_In. exact G. Qed.
Lemma proper_heap_intro h n : n = List.length h -> (forall l o, hget h l = Some o -> proper_obj n o) -> proper_heap h.
Proof. intros -> H. apply Forall_forall. intros o I. apply In_nth_error in I as [l L]. eapply H. exact L. Qed.
Lemma apply_proper u S h : proper_heap h -> proper_heap (apply (full u) S h).
Proof.
  intros P. apply (proper_heap_intro _ (List.length h)); [now rewrite apply_length|]. intros l o G. rewrite apply_get in G.
  destruct (S l).
  - destruct (hget h l) as [o'|] eqn:G'; [|discriminate]. injection G as <-. rewrite <- partial_all. apply partial_proper. eapply proper_get; eauto.
  - eapply proper_get; eauto.
Qed.
Lemma apply_node u S h l : node u (apply (full u) S h) l = without S (node u h) l.
Proof.
  unfold node, without. rewrite apply_get. destruct (S l); [|reflexivity]. destruct (hget h l); [|reflexivity]. cbn [option_map].
  rewrite <- partial_all, partial_isrc. reflexivity.
Qed.
Lemma apply_count u S h : (count u (apply (full u) S h) <= count u h)%nat.
Proof.
  unfold count, apply. generalize 0%nat. induction h as [|o h IH]; intros k; [cbn; lia|]. cbn [apply_from filter]. specialize (IH (Datatypes.S k)).
  destruct (S k).
  - rewrite <- partial_all, partial_isrc. destruct (isrc u o); cbn [List.length]; lia.
  - destruct (isrc u o); cbn [List.length]; lia.
Qed.
Lemma hset_count u f : forall h l o, hget h l = Some o -> isrc u o = true -> isrc u (f o) = false ->
  count u h = Datatypes.S (count u (hset h l f)).
Proof.
  unfold count, hget. induction h as [|o' h IH]; intros [|l] o G A B; try discriminate; cbn [nth_error hset filter] in *.
  - injection G as ->. rewrite A, B. reflexivity.
  - specialize (IH _ _ G A B). destruct (isrc u o'); cbn [List.length]; lia.
Qed.
Lemma hset_count_same u f : forall h l o, hget h l = Some o -> isrc u o = isrc u (f o) -> count u (hset h l f) = count u h.
Proof.
  unfold count, hget. induction h as [|o' h IH]; intros [|l] o G A; try discriminate; cbn [nth_error hset filter] in *.
  - injection G as ->. rewrite A. destruct (isrc u (f o)); reflexivity.
  - specialize (IH _ _ G A). destruct (isrc u o'); cbn [List.length]; lia.
Qed.

Definition union (S1 S2 : loc -> bool) : loc -> bool := fun l => S1 l || S2 l.
Lemma apply_apply u S1 S2 h : (forall x, S2 x = true -> S1 x = false) ->
  apply (full u) S2 (apply (full u) S1 h) = apply (full u) (union S1 S2) h.
Proof.
  intros D. apply nth_error_ext. intros n. change (hget (apply (full u) S2 (apply (full u) S1 h)) n = hget (apply (full u) (union S1 S2) h) n).
  rewrite !apply_get. unfold union. specialize (D n). destruct (S1 n), (S2 n); try reflexivity. exfalso. specialize (D eq_refl). discriminate.
Qed.
Lemma apply_none f h : apply f (fun _ => false) h = h.
Proof. apply nth_error_ext. intros n. exact (apply_get f (fun _ => false) h n). Qed.

Definition conv_ok (fuel : nat) : Prop := forall u h l, proper_heap h -> (l < List.length h)%nat -> (count u h < fuel)%nat ->
  exists S, convert fuel u h l = Ok (apply (full u) S h) /\ forall x, S x = true <-> path (node u h) l x.

Lemma fold_convert fuel (IH : conv_ok fuel) u : forall ls h, proper_heap h -> Forall (fun l => l < List.length h)%nat ls -> (count u h < fuel)%nat ->
  exists S, foldM (convert fuel u) h ls = Ok (apply (full u) S h) /\ forall x, S x = true <-> exists c, In c ls /\ path (node u h) c x.
Proof.
  induction ls as [|c ls IHl]; intros h P F C.
  - exists (fun _ => false). cbn [foldM]. rewrite apply_none. split; [reflexivity|]. intros x. split; [discriminate|]. intros (c & [] & _).
  - inversion F as [|? ? F1 F2]; subst. destruct (IH u h c P F1 C) as (S1 & E1 & H1).
    destruct (IHl (apply (full u) S1 h) (apply_proper u S1 h P)) as (S2 & E2 & H2).
    + rewrite apply_length. exact F2.
    + pose proof (apply_count u S1 h). lia.
    + assert (H2' : forall x, S2 x = true <-> exists c, In c ls /\ path (without S1 (node u h)) c x).
      { intros x. rewrite H2. split; intros (c' & I & Q); exists c'; (split; [exact I|]); eapply path_ext; try exact Q; intros l; [|symmetry]; apply apply_node. }
      exists (union S1 S2). cbn [foldM]. rewrite E1. cbn [bind]. rewrite E2. split.
      * f_equal. apply apply_apply. intros x X. apply H2' in X as (c' & _ & Q). now apply path_without in Q.
      * intros x. unfold union. rewrite orb_true_iff, H1, H2'. split.
        -- intros [Q|(c' & I & Q)]; [exists c; split; [now left|exact Q]|]. exists c'. split; [now right|]. now apply path_without in Q.
        -- intros (c' & [<-|I] & Q); [now left|].
           destruct (path_split (node u h) S1 [c] ) with (c := c') (x := x) as [A|A]; auto.
           ++ intros y. rewrite H1. split; [intros A; exists c; split; [now left|exact A]|]. intros (c1 & [<-|[]] & A). exact A.
           ++ left. now apply H1.
           ++ right. exists c'. auto.
Qed.

Lemma partial_same u d d' o : (forall n, In n d <-> In n d') -> partial u d o = partial u d' o.
Proof.
  intros E. unfold partial. f_equal. apply map_ext. intros [n v]. cbn [fst snd].
  destruct (in_dec string_dec n d) as [K|K], (in_dec string_dec n d') as [K'|K']; try reflexivity; exfalso; [apply K', E, K|apply K, E, K'].
Qed.

Section Loop.
  Variables (fuel : nat) (IH : conv_ok fuel) (u : unit_) (h : heap) (l : loc) (o : pobj).
  Hypothesis (P : proper_heap h) (G : hget h l = Some o) (SR : isrc u o = true) (CT : (count u h <= fuel)%nat).
  Let state (d : list string) (S : loc -> bool) : heap := hset (apply (full u) S h) l (fun _ => partial u d o).
  Let g0 := without (Nat.eqb l) (node u h).
  Let alinks (n : string) : list loc := match getattr n (po_attrs o) with Some v => clinks v | None => [] end.
  Let body := fun (g : heap) (n : string) =>
     match getattr n (po_attrs o) with
     | None => Err AttributeError
     | Some v => do t <- plan u v;
                 match t with
                 | Convert ls => foldM (convert fuel u) g ls
                 | Replace v' => Ok (hset g l (put n v'))
                 | Skip => Ok g
                 end
     end.

  Lemma state_get d S m : hget (state d S) m = if Nat.eqb l m then Some (partial u d o) else if S m then option_map (full u) (hget h m) else hget h m.
  Proof.
    unfold state. destruct (Nat.eqb_spec l m) as [<-|N].
    - rewrite hget_hset_same, apply_get, G. now destruct (S l).
    - rewrite hget_hset_other by congruence. apply apply_get.
  Qed.
  Lemma state_length d S : List.length (state d S) = List.length h.
  Proof. unfold state. rewrite hset_length. apply apply_length. Qed.
  Lemma state_proper d S : proper_heap (state d S).
  Proof.
    apply (proper_heap_intro _ (List.length h)); [symmetry; apply state_length|]. intros m o' E. rewrite state_get in E.
    destruct (Nat.eqb l m).
    - injection E as <-. apply partial_proper. eapply proper_get; eauto.
    - destruct (S m); [|eapply proper_get; eauto]. destruct (hget h m) eqn:E'; [|discriminate]. injection E as <-.
      rewrite <- partial_all. apply partial_proper. eapply proper_get; eauto.
  Qed.
  Lemma state_node d S x : node u (state d S) x = without S g0 x.
  Proof.
    unfold node, without, g0. rewrite state_get. destruct (Nat.eqb_spec l x) as [<-|N].
    - rewrite partial_isrc. unfold without. rewrite Nat.eqb_refl. now destruct (S l).
    - unfold without. rewrite (proj2 (Nat.eqb_neq l x) N). destruct (S x); [|reflexivity].
      destruct (hget h x); [|reflexivity]. cbn [option_map]. rewrite <- partial_all, partial_isrc. reflexivity.
  Qed.
  Lemma state_count d S : S l = false -> (count u (state d S) < fuel)%nat.
  Proof.
    intros SL. unfold state. pose proof (apply_count u S h) as A.
    assert (G' : hget (apply (full u) S h) l = Some o) by (rewrite apply_get, SL; exact G).
    pose proof (hset_count u (fun _ => partial u d o) _ _ _ G' SR (partial_isrc u d o)). lia.
  Qed.
  Lemma state_apply d S T0 : (forall x, T0 x = true -> S x = false /\ x <> l) -> apply (full u) T0 (state d S) = state d (union S T0).
  Proof.
    intros D. apply nth_error_ext. intros n. change (hget (apply (full u) T0 (state d S)) n = hget (state d (union S T0)) n).
    rewrite apply_get, !state_get. unfold union. specialize (D n). destruct (Nat.eqb_spec l n) as [<-|N].
    - destruct (T0 l); [|reflexivity]. exfalso. now apply D.
    - destruct (T0 n), (S n); try reflexivity. exfalso. destruct (D eq_refl). discriminate.
  Qed.
  Lemma g0_not_l c x : path g0 c x -> x <> l.
  Proof. intros Q. apply path_without in Q as [_ Q]. intros ->. now rewrite Nat.eqb_refl in Q. Qed.

  Lemma loop_ok : forall r d S, NoDup (d ++ r) -> (forall n, In n r -> In n (po_conv o)) -> S l = false ->
    (forall x, S x = true <-> exists c, In c (flat_map alinks d) /\ path g0 c x) ->
    exists S', foldM body (state d S) r = Ok (state (rev r ++ d) S') /\ S' l = false /\
      (forall x, S' x = true <-> exists c, In c (flat_map alinks (rev r ++ d)) /\ path g0 c x).
  Proof.
    pose proof (proper_get _ _ _ P G) as (N1 & N2 & PV).
    induction r as [|n r IHr]; intros d S ND IN SL HS.
    - exists S. auto.
    - assert (ND' : NoDup ((n :: d) ++ r)) by (cbn [app]; constructor; [exact (NoDup_remove_2 _ _ _ ND)|exact (NoDup_remove_1 _ _ _ ND)]).
      assert (NI : ~ In n d).
      { intros I. apply NoDup_remove_2 in ND. apply ND. apply in_or_app. now left. }
      destruct (PV n (IN n (or_introl eq_refl))) as (v & GV & PR). destruct (plan_proper u _ v PR) as (t & PL & LT & CASE).
      assert (AL : alinks n = clinks v) by (unfold alinks; now rewrite GV).
      assert (REC : forall S1, S1 l = false -> (forall x, S1 x = true <-> exists c, In c (flat_map alinks (n :: d)) /\ path g0 c x) ->
        foldM body (state d S) (n :: r) = foldM body (state (n :: d) S1) r ->
        exists S', foldM body (state d S) (n :: r) = Ok (state (rev (n :: r) ++ d) S') /\ S' l = false /\
        (forall x, S' x = true <-> exists c, In c (flat_map alinks (rev (n :: r) ++ d)) /\ path g0 c x)).
      { intros S1 SL1 HS1 E1. rewrite E1. cbn [rev]. rewrite <- app_assoc. cbn [app]. apply IHr; auto. intros m M. apply IN. now right. }
      destruct t as [ls|v'|].
      + destruct CASE as [-> RV].
        destruct (fold_convert fuel IH u (clinks v) (state d S) (state_proper d S)) as (T0 & E0 & H0).
        * rewrite state_length. exact LT.
        * now apply state_count.
        * assert (H0' : forall x, T0 x = true <-> exists c, In c (clinks v) /\ path (without S g0) c x).
          { intros x. rewrite H0. split; intros (c & I & Q); exists c; (split; [exact I|]); eapply path_ext; try exact Q; intros y; [|symmetry]; apply state_node. }
          assert (DJ : forall x, T0 x = true -> S x = false /\ x <> l).
          { intros x X. apply H0' in X as (c & _ & Q). apply path_without in Q as [Q SX]. split; [exact SX|]. eapply g0_not_l; eauto. }
          apply (REC (union S T0)).
          -- unfold union. rewrite SL. destruct (T0 l) eqn:TL; [|reflexivity]. exfalso. now apply (DJ l).
          -- intros x. unfold union. rewrite orb_true_iff, HS, H0'. cbn [flat_map]. rewrite AL. split.
             ++ intros [(c & I & Q)|(c & I & Q)]; exists c; (split; [apply in_or_app; auto|]); [exact Q|]. now apply path_without in Q.
             ++ intros (c & I & Q). apply in_app_or in I as [I|I]; [|left; eauto].
                destruct (path_split g0 S _ HS c x Q) as [A|A]; [left; now apply HS|right; eauto].
          -- cbn [foldM]. unfold body at 1. rewrite GV, PL. cbn [bind]. rewrite E0, (state_apply d S T0 DJ). cbn [bind].
             f_equal. unfold state. f_equal. now rewrite (skip_partial u d n o v N2 GV RV).
      + destruct CASE as [-> CL]. apply (REC S SL).
        * intros x. rewrite HS. cbn [flat_map]. rewrite AL, CL. reflexivity.
        * cbn [foldM]. unfold body at 1. rewrite GV, PL. cbn [bind]. f_equal. apply nth_error_ext. intros m.
          change (hget (hset (state d S) l (put n (rescale_value (factor u) v))) m = hget (state (n :: d) S) m).
          rewrite state_get. destruct (Nat.eqb_spec l m) as [<-|NE].
          -- rewrite hget_hset_same, state_get, Nat.eqb_refl. cbn [option_map]. f_equal. now apply put_partial.
          -- rewrite hget_hset_other by congruence. rewrite state_get. now rewrite (proj2 (Nat.eqb_neq l m) NE).
      + destruct CASE as [RV CL]. apply (REC S SL).
        * intros x. rewrite HS. cbn [flat_map]. rewrite AL, CL. reflexivity.
        * cbn [foldM]. unfold body at 1. rewrite GV, PL. cbn [bind]. unfold state. now rewrite (skip_partial u d n o v N2 GV RV).
  Qed.

  Lemma object_ok : exists S, foldM body (hset h l (with_units u)) (po_conv o) = Ok (apply (full u) S h) /\
    forall x, S x = true <-> path (node u h) l x.
  Proof.
    pose proof (proper_get _ _ _ P G) as (N1 & N2 & PV).
    assert (E0 : hset h l (with_units u) = state [] (fun _ => false)).
    { apply nth_error_ext. intros m. change (hget (hset h l (with_units u)) m = hget (state [] (fun _ => false)) m). rewrite state_get.
      destruct (Nat.eqb_spec l m) as [<-|NE].
      - rewrite hget_hset_same, G. cbn [option_map]. f_equal. symmetry. apply partial_nil.
      - now rewrite hget_hset_other by congruence. }
    destruct (loop_ok (po_conv o) [] (fun _ => false)) as (S & E & SL & HS); auto.
    { intros x. split; [discriminate|]. intros (c & [] & _). }
    rewrite app_nil_r in *. exists (union (Nat.eqb l) S). rewrite E0, E. split.
    - f_equal. apply nth_error_ext. intros m. change (hget (state (rev (po_conv o)) S) m = hget (apply (full u) (union (Nat.eqb l) S) h) m).
      rewrite state_get, apply_get. unfold union. destruct (Nat.eqb_spec l m) as [<-|NE]; cbn [orb]; [|reflexivity].
      rewrite G. cbn [option_map]. f_equal. rewrite <- partial_all. apply partial_same. intros k. symmetry. apply in_rev.
    - intros x. assert (NL : node u h l = Some (oclinks o)) by (unfold node; now rewrite G, SR).
      rewrite (path_head (node u h) l (oclinks o) x NL). unfold union. rewrite orb_true_iff, HS, Nat.eqb_eq.
      assert (OL : forall c, In c (flat_map alinks (rev (po_conv o))) <-> In c (oclinks o)).
      { intros c. unfold oclinks. rewrite !in_flat_map. split; intros (k & K & C); exists k; (split; [|exact C]); [apply in_rev; exact K|apply -> in_rev; exact K]. }
      split.
      + intros [<-|(c & C & Q)]; [now left|right]. exists c. split; [now apply OL|exact Q].
      + intros [->|(c & C & Q)]; [now left|right]. exists c. split; [now apply OL|exact Q].
  Qed.
End Loop.

Lemma convert_ok : forall fuel, conv_ok fuel.
Proof.
  induction fuel as [|fuel IH]; intros u h l P L C; [lia|].
  apply hget_some in L as [o G]. cbn [convert]. rewrite G. destruct (isrc u o) eqn:SR.
  - pose proof SR as SR'. unfold isrc in SR'. destruct (po_units o) as [w|] eqn:U; [|discriminate].
    destruct (unit_eqb w u); [discriminate|]. apply object_ok; auto. lia.
  - exists (fun _ => false). rewrite apply_none. split.
    + unfold isrc in SR. destruct (po_units o) as [w|]; [|reflexivity]. destruct (unit_eqb w u); [reflexivity|discriminate].
    + intros x. split; [discriminate|]. intros Q. assert (NN : node u h l = None) by (unfold node; now rewrite G, SR).
      inversion Q; congruence.
Qed.

(** ** Consequences *)
Lemma count_le u h : (count u h <= List.length h)%nat.
Proof. unfold count. induction h as [|o h IH]; [cbn; lia|]. cbn [filter]. destruct (isrc u o); cbn [List.length]; lia. Qed.
Definition enough (h : heap) : nat := Datatypes.S (List.length h).
Lemma convert_all_ok u h ls : proper_heap h -> Forall (fun l => l < List.length h)%nat ls ->
  exists S, convert_all (enough h) u h ls = Ok (apply (full u) S h) /\
    forall x, S x = true <-> exists c, In c ls /\ path (node u h) c x.
Proof. intros P F. apply fold_convert; auto; [apply convert_ok|]. pose proof (count_le u h). unfold enough. lia. Qed.

Lemma path_source u h c x : path (node u h) c x -> exists o, hget h x = Some o /\ po_units o = Some (other u).
Proof.
  induction 1 as [l ls H|]; [|assumption]. unfold node in H. destruct (hget h l) as [o|]; [|discriminate]. exists o. split; [reflexivity|].
  destruct (isrc u o) eqn:E; [now apply isrc_true|discriminate].
Qed.

(** Links. *)
Lemma getattr_in : forall a n v, NoDup (map fst a) -> (getattr n a = Some v <-> In (n, v) a).
Proof.
  induction a as [|[m w] a IH]; intros n v N; [cbn; split; [discriminate|tauto]|]. inversion N as [|? ? N1 N2]; subst. cbn [getattr].
  destruct (String.eqb_spec m n) as [->|NE].
  - split.
    + intros E. injection E as ->. now left.
    + intros [E|I]; [injection E as ->; reflexivity|]. exfalso. apply N1. apply in_map_iff. now exists (n, v).
  - rewrite (IH n v N2). split; [intros I; now right|]. intros [E|I]; [injection E as <- <-; congruence|exact I].
Qed.
Lemma in_lengths o a : In a (lengths o) <-> In a (po_attrs o) /\ In (fst a) (po_conv o).
Proof. unfold lengths. rewrite filter_In. destruct (in_dec string_dec (fst a) (po_conv o)); intuition discriminate. Qed.
Lemma clinks_links n v : proper n v -> (forall t w, v <> VSeq t [w]) -> clinks v = links v.
Proof.
  intros P N. destruct P as [|q|v P|a b l F|l L|ls F]; try reflexivity.
  - destruct P as (a & b & l & -> & F). pose proof F as F'. inversion F' as [|? ? [q ->] _]; subst. cbn [clinks links]. now rewrite (number_links _ F).
  - pose proof F as F'. inversion F' as [|? ? (x & y & z & -> & _) _]; subst. cbn [clinks]. 
    transitivity (flat_map links (VSeq true (x :: y :: z) :: b :: l)); [now rewrite (points_links _ F)|reflexivity].
  - destruct ls as [|a [|b ls]]; try reflexivity. exfalso. eapply N. reflexivity.
Qed.
Lemma clinks_sub v m : In m (clinks v) -> In m (links v).
Proof. destruct v as [| |t [|[| | | |] [|y l]]| |]; cbn [clinks]; try contradiction; auto. Qed.
Lemma oclinks_parts n o m : proper_obj n o -> In m (oclinks o) -> In m (parts o).
Proof.
  intros (N1 & N2 & P) I. unfold oclinks in I. apply in_flat_map in I as (a & A & M). destruct (getattr a (po_attrs o)) as [v|] eqn:G; [|destruct M].
  unfold parts. apply in_flat_map. exists (a, v). split; [|now apply clinks_sub]. apply in_lengths. split; [now apply getattr_in|exact A].
Qed.
Lemma parts_oclinks n o m : proper_obj n o -> (forall a t v, In a (lengths o) -> snd a <> VSeq t [v]) -> In m (parts o) -> In m (oclinks o).
Proof.
  intros (N1 & N2 & P) NS I. unfold parts in I. apply in_flat_map in I as ([a v] & A & M). cbn [snd] in M.
  pose proof A as A'. apply in_lengths in A' as [A1 A2]. cbn [fst] in A2. unfold oclinks. apply in_flat_map. exists a. split; [exact A2|].
  apply (getattr_in _ _ _ N2) in A1. destruct (P a A2) as (v' & G & PV). rewrite A1 in *. injection G as <-.
  rewrite (clinks_links n v PV); [exact M|]. intros t w E. apply (NS _ t w A). exact E.
Qed.
Lemma parts_range n o m : proper_obj n o -> In m (parts o) -> (m < n)%nat.
Proof.
  intros (N1 & N2 & P) I. unfold parts in I. apply in_flat_map in I as ([a v] & A & M). cbn [snd] in M.
  apply in_lengths in A as [A1 A2]. cbn [fst] in A2. apply (getattr_in _ _ _ N2) in A1. destruct (P a A2) as (v' & G & PV). rewrite A1 in G. injection G as <-.
  destruct PV as [|q|v Q|x y l F|l L|ls F]; cbn [links] in M; try contradiction.
  - now rewrite (point_links v Q) in M.
  - change (flat_map links (x :: y :: l)) with (links (VSeq true (x :: y :: l))) in M. cbn [links] in M. rewrite (points_links _ F) in M. destruct M.
  - destruct M as [<-|[]]. exact L.
  - change (In m (links (VSeq true (map VRef ls)))) in M. rewrite links_refs in M. rewrite Forall_forall in F. auto.
Qed.
Lemma part_of_range h c x : proper_heap h -> (c < List.length h)%nat -> part_of h c x -> (x < List.length h)%nat.
Proof.
  intros P L Q. induction Q as [l|l o m x G I Q IH]; [exact L|]. apply IH. eapply parts_range; [|exact I]. eapply proper_get; eauto.
Qed.
Lemma part_of_trans h a b c : part_of h a b -> part_of h b c -> part_of h a c.
Proof. intros H. induction H; auto. intros H'. eapply Part_sub; eauto. Qed.

Lemma path_part u h c x : proper_heap h -> path (node u h) c x -> part_of h c x.
Proof.
  intros P Q. induction Q as [l ls H|l ls m x H I Q IH]; [constructor|]. unfold node in H. destruct (hget h l) as [o|] eqn:G; [|discriminate].
  destruct (isrc u o); [|discriminate]. injection H as <-. eapply Part_sub; [exact G| |exact IH]. eapply oclinks_parts; [|exact I]. eapply proper_get; eauto.
Qed.
Lemma part_path u h c x : proper_heap h -> no_single_lists h -> (c < List.length h)%nat ->
  (forall m o, part_of h c m -> hget h m = Some o -> po_units o = Some (other u) \/ (po_units o = None /\ parts o = [])) -> part_of h c x ->
  path (node u h) c x \/ (exists o, hget h x = Some o /\ po_units o = None).
Proof.
  intros P NS L A Q. induction Q as [l|l o m x G I Q IH].
  - apply hget_some in L as [o G]. destruct (A l o (Part_self _ _) G) as [U|[U _]]; [|right; eauto].
    left. apply (path_here _ _ (oclinks o)). unfold node. rewrite G. now rewrite (proj2 (isrc_true u o) U).
  - destruct (A l o (Part_self _ _) G) as [U|[_ U]]; [|rewrite U in I; destruct I].
    destruct IH as [IH|IH]; [eapply parts_range; [eapply proper_get; eauto|exact I]|..|right; exact IH].
    + intros m' o' Q' G'. eapply A; [|exact G']. eapply Part_sub; eauto.
    + left. eapply (path_step _ l (oclinks o) m); [|eapply parts_oclinks; [eapply proper_get; eauto| |exact I]|exact IH].
      * unfold node. rewrite G. now rewrite (proj2 (isrc_true u o) U).
      * intros a t v. eapply NS; eauto.
Qed.

(** C52 *)
Lemma conversion_exact u h ls : proper_heap h -> no_single_lists h -> Forall (fun l => l < List.length h)%nat ls -> all_in (other u) h ls ->
  exists h', convert_all (enough h) u h ls = Ok h' /\ converts_exactly u h ls h'.
Proof.
  intros P NS F A. destruct (convert_all_ok u h ls P F) as (S & E & H). exists (apply (full u) S h). split; [exact E|].
  split; [apply apply_length|]. rewrite Forall_forall in F. split.
  - intros l m I Q. rewrite apply_get. destruct (S m) eqn:SM.
    + apply H in SM as (c & C & Q'). apply path_source in Q' as (o & G & U). rewrite G. cbn [option_map]. f_equal. symmetry. eapply full_rescaled. exact U.
    + destruct (part_path u h l m P NS (F l I)) as [X|(o & G & U)]; auto.
      * intros m' o' Q' G'. eapply A; eauto.
      * assert (S m = true) by (apply H; eauto). congruence.
      * rewrite G. cbn [option_map]. now rewrite (rescaled_none _ _ U).
  - intros m N. rewrite apply_get. destruct (S m) eqn:SM; [|reflexivity]. exfalso. apply H in SM as (c & C & Q').
    apply (N c C). eapply path_part; eauto.
Qed.
Lemma conversion_total u h ls : proper_heap h -> Forall (fun l => l < List.length h)%nat ls ->
  is_ok (convert_all (enough h) u h ls) = true.
Proof. intros P F. destruct (convert_all_ok u h ls P F) as (S & E & H). now rewrite E. Qed.

(** Rescaling. *)
Lemma rescale_rescale a b : forall v, rescale_value a (rescale_value b v) = rescale_value (a * b) v.
Proof.
  fix IH 1. intros [|q|t l|l|]; try reflexivity.
  - cbn [rescale_value]. f_equal. ring.
  - cbn [rescale_value]. f_equal. induction l as [|x l IHl]; [reflexivity|]. cbn [map]. now rewrite IH, IHl.
Qed.
Lemma rescale_one : forall v, rescale_value 1 v = v.
Proof.
  fix IH 1. intros [|q|t l|l|]; try reflexivity.
  - cbn [rescale_value]. f_equal. ring.
  - cbn [rescale_value]. f_equal. induction l as [|x l IHl]; [reflexivity|]. cbn [map]. now rewrite IH, IHl.
Qed.
Lemma mm_nonzero : dec 254 1 <> 0.
Proof. intros E. apply (f_equal (fun q => this q)) in E. vm_compute in E. discriminate. Qed.
Lemma factor_inverse u : factor (other u) * factor u = 1.
Proof. destruct u; cbn [factor other]; field; exact mm_nonzero. Qed.
Lemma factor_mm u : in_mm (Some u) * factor u = in_mm (Some (other u)).
Proof. destruct u; cbn [factor other in_mm]; [field; exact mm_nonzero|ring]. Qed.
Lemma full_inverse u o : po_units o = Some (other u) -> full (other u) (full u o) = o.
Proof.
  intros U. destruct o as [w c a]. cbn [po_units] in U. subst w. unfold full. cbn [po_conv po_attrs]. f_equal. rewrite map_map.
  transitivity (map (fun x : string * value => x) a); [|apply map_id]. apply map_ext. intros [n v]. cbn [fst snd].
  destruct (in_dec string_dec n c) as [I|I]; cbn [fst snd].
  - destruct (in_dec string_dec n c); [|contradiction]. rewrite rescale_rescale, factor_inverse, rescale_one. reflexivity.
  - destruct (in_dec string_dec n c); [contradiction|reflexivity].
Qed.
Lemma full_lengths u o : lengths (full u o) = map (fun a => (fst a, rescale_value (factor u) (snd a))) (lengths o).
Proof.
  unfold lengths, full. cbn [po_conv po_attrs]. induction (po_attrs o) as [|[n v] a IH]; [reflexivity|].
  cbn [map filter fst snd]. destruct (in_dec string_dec n (po_conv o)) as [I|I]; cbn [fst snd].
  - destruct (in_dec string_dec n (po_conv o)); [|contradiction]. cbn [map fst snd]. now rewrite IH.
  - destruct (in_dec string_dec n (po_conv o)); [contradiction|]. exact IH.
Qed.
Lemma full_non_lengths u o : non_lengths (full u o) = non_lengths o.
Proof.
  unfold non_lengths, full. cbn [po_conv po_attrs]. induction (po_attrs o) as [|[n v] a IH]; [reflexivity|].
  cbn [map filter fst snd]. destruct (in_dec string_dec n (po_conv o)) as [I|I]; cbn [fst snd].
  - destruct (in_dec string_dec n (po_conv o)); [|contradiction]. exact IH.
  - destruct (in_dec string_dec n (po_conv o)); [contradiction|]. now rewrite IH.
Qed.
Lemma full_physical u o : po_units o = Some (other u) -> physical (full u o) = physical o.
Proof.
  intros U. unfold physical. rewrite full_lengths, map_map. apply map_ext. intros [n v]. cbn [fst snd]. f_equal.
  rewrite rescale_rescale, U. cbn [full po_units]. now rewrite factor_mm.
Qed.
Lemma conversion_physical u h ls h' : proper_heap h -> Forall (fun l => l < List.length h)%nat ls -> convert_all (enough h) u h ls = Ok h' ->
  forall m o, hget h m = Some o -> exists o', hget h' m = Some o' /\ physical o' = physical o /\ non_lengths o' = non_lengths o.
Proof.
  intros P F E m o G. destruct (convert_all_ok u h ls P F) as (S & E' & H). rewrite E' in E. apply ok_inj in E. subst h'.
  rewrite apply_get, G. destruct (S m) eqn:SM.
  - apply H in SM as (c & _ & Q). apply path_source in Q as (o' & G' & U). rewrite G in G'. injection G' as <-.
    exists (full u o). split; [reflexivity|]. split; [now apply full_physical|apply full_non_lengths].
  - exists o. auto.
Qed.

(** Conversion to the unit already in force. *)
Lemma conversion_idle u h ls : (forall l, In l ls -> exists o, hget h l = Some o /\ (po_units o = Some u \/ po_units o = None)) -> forall n, convert_all (Datatypes.S n) u h ls = Ok h.
Proof.
  intros A n. unfold convert_all. induction ls as [|l ls IH]; [reflexivity|]. cbn [foldM convert].
  destruct (A l (or_introl eq_refl)) as (o & G & U). rewrite G.
  destruct U as [U|U]; rewrite U; [assert (E : unit_eqb u u = true) by (now apply unit_eqb_spec); rewrite E|]; cbn [bind]; (apply IH; intros m M; apply A; now right).
Qed.

(** There and back. *)
Lemma conversion_back u h ls h' : proper_heap h -> Forall (fun l => l < List.length h)%nat ls -> all_in (other u) h ls ->
  convert_all (enough h) u h ls = Ok h' ->
  convert_all (enough h') (other u) h' ls = Ok h /\
  (forall l, In l ls -> exists o, hget h' l = Some o /\ (po_units o = Some u \/ po_units o = None)) /\
  List.length h' = List.length h.
Proof.
  intros P F A E. destruct (convert_all_ok u h ls P F) as (S & E' & H). rewrite E' in E. apply ok_inj in E. subst h'.
  set (h1 := apply (full u) S h). assert (P1 : proper_heap h1) by now apply apply_proper.
  assert (L1 : List.length h1 = List.length h) by apply apply_length.
  assert (SR : forall m, S m = true -> exists o, hget h m = Some o /\ po_units o = Some (other u) /\ hget h1 m = Some (full u o)).
  { intros m M. pose proof M as M'. apply H in M' as (c & _ & Q). apply path_source in Q as (o & G & U). exists o. unfold h1. rewrite apply_get, M, G. auto. }
  set (bare := fun m => S m = false /\ exists o, hget h m = Some o /\ po_units o = None).
  assert (DEC : forall m o, hget h m = Some o -> po_units o = None -> bare m).
  { intros m o G U. split; [|eauto]. destruct (S m) eqn:M; [|reflexivity]. destruct (SR m M) as (o' & G' & U' & _). congruence. }
  assert (ROOT : forall l, In l ls -> S l = true \/ bare l).
  { intros l L. rewrite Forall_forall in F. pose proof (F l L) as R. apply hget_some in R as [o G].
    destruct (A l l o L (Part_self _ _) G) as [U|[U _]]; [left|right; eauto]. apply H. exists l. split; [exact L|].
    apply (path_here _ _ (oclinks o)). unfold node. now rewrite G, (proj2 (isrc_true u o) U). }
  assert (CL : forall m o x, S m = true -> hget h m = Some o -> In x (oclinks o) -> S x = true \/ bare x).
  { intros m o x M G I. pose proof M as M'. apply H in M' as (c & C & Q).
    assert (PX : part_of h c x).
    { eapply part_of_trans; [eapply path_part; eauto|]. eapply Part_sub; [exact G|exact (oclinks_parts _ _ _ (proper_get _ _ _ P G) I)|constructor]. }
    assert (RX : (x < List.length h)%nat). { pose proof (proper_get _ _ _ P G) as PO. exact (parts_range _ _ _ PO (oclinks_parts _ _ _ PO I)). }
    apply hget_some in RX as [ox GX].
    destruct (A c x ox C PX GX) as [UX|[UX _]]; [left|right; eauto]. apply H. exists c. split; [exact C|].
    assert (PP : path (node u h) m x).
    { eapply (path_step _ m (oclinks o) x).
      - unfold node. rewrite G. destruct (SR m M) as (o2 & G2 & U2 & _). rewrite G in G2. injection G2 as <-. now rewrite (proj2 (isrc_true u o) U2).
      - exact I.
      - apply (path_here _ _ (oclinks ox)). unfold node. now rewrite GX, (proj2 (isrc_true u ox) UX). }
    clear - Q PP. induction Q; auto. eapply path_step; eauto. }
  assert (NODE : forall m, S m = true \/ bare m -> node (other u) h1 m = node u h m).
  { intros m [M|[M (o & G & U)]].
    - destruct (SR m M) as (o & G & U & G1). unfold node. rewrite G, G1.
      rewrite (proj2 (isrc_true u o) U). rewrite (proj2 (isrc_true (other u) (full u o))) by (cbn; now rewrite other_other).
      rewrite <- partial_all, partial_oclinks. reflexivity.
    - unfold node, h1. rewrite apply_get, M, G. unfold isrc. now rewrite U. }
  assert (NB : forall m l, bare m -> node u h m = Some l -> False).
  { intros m l (_ & o & G & U). unfold node. rewrite G. unfold isrc. rewrite U. discriminate. }
  destruct (convert_all_ok (other u) h1 ls P1) as (S' & E1 & H1); [rewrite L1; exact F|].
  assert (SS : forall x, S' x = true <-> S x = true).
  { intros x. rewrite H1, H. split; intros (c & C & Q); exists c; (split; [exact C|]).
    - pose proof (ROOT c C) as RC. clear C. induction Q as [l2 ls2 Hn|l2 ls2 m x Hn I Q IH].
      + eapply path_here. rewrite <- (NODE _ RC). exact Hn.
      + rewrite (NODE _ RC) in Hn. eapply path_step; [exact Hn|exact I|]. apply IH.
        destruct RC as [RC|RC]; [|exfalso; exact (NB _ _ RC Hn)]. destruct (SR _ RC) as (o & G & U & _).
        unfold node in Hn. rewrite G, (proj2 (isrc_true u o) U) in Hn. injection Hn as <-. eapply CL; eauto.
    - pose proof (ROOT c C) as RC. clear C. induction Q as [l2 ls2 Hn|l2 ls2 m x Hn I Q IH].
      + eapply path_here. rewrite (NODE _ RC). exact Hn.
      + eapply path_step; [rewrite (NODE _ RC); exact Hn|exact I|]. apply IH.
        destruct RC as [RC|RC]; [|exfalso; exact (NB _ _ RC Hn)]. destruct (SR _ RC) as (o & G & U & _).
        unfold node in Hn. rewrite G, (proj2 (isrc_true u o) U) in Hn. injection Hn as <-. eapply CL; eauto. }
  split; [|split; [|exact L1]].
  - rewrite E1. f_equal. apply nth_error_ext. intros m. change (hget (apply (full (other u)) S' h1) m = hget h m).
    rewrite apply_get. destruct (S' m) eqn:SM.
    + apply SS in SM. destruct (SR m SM) as (o & G & U & G1). rewrite G1, G. cbn [option_map]. f_equal. now apply full_inverse.
    + unfold h1. rewrite apply_get. destruct (S m) eqn:SM'; [|reflexivity]. apply SS in SM'. congruence.
  - intros l L. destruct (ROOT l L) as [R|[R (o & G & U)]].
    + destruct (SR l R) as (o & G & U & G1). exists (full u o). auto.
    + exists o. unfold h1. rewrite apply_get, R. auto.
Qed.

(** A copied object graph is converted and moved as the original would be. *)
Lemma hset_app h1 h2 l f : hset (h1 ++ h2)%list (List.length h1 + l)%nat f = (h1 ++ hset h2 l f)%list.
Proof. induction h1 as [|x t IH]; cbn; [reflexivity|now rewrite IH]. Qed.
Lemma getattr_shift k m a : getattr m (map (fun x => (fst x, shift_value k (snd x))) a) = option_map (shift_value k) (getattr m a).
Proof. induction a as [|[x v] a IH]; cbn; [reflexivity|]. destruct (String.eqb x m); [reflexivity|exact IH]. Qed.
Lemma setattr_shift k m v a : setattr m (shift_value k v) (map (fun x => (fst x, shift_value k (snd x))) a) = map (fun x => (fst x, shift_value k (snd x))) (setattr m v a).
Proof. induction a as [|[x w] a IH]; cbn; [reflexivity|]. destruct (String.eqb x m); cbn; [reflexivity|now rewrite IH]. Qed.
Lemma put_shift k m v o : put m (shift_value k v) (shift_obj k o) = shift_obj k (put m v o).
Proof. unfold put, shift_obj. cbn. now rewrite setattr_shift. Qed.
Lemma mapM_shift {A} k (f : value -> res A) (g : A -> A) l : (forall v, f (shift_value k v) = rmap g (f v)) ->
  mapM f (map (shift_value k) l) = rmap (map g) (mapM f l).
Proof.
  intros E. induction l as [|v l IH]; cbn; [reflexivity|]. rewrite E. destruct (f v); cbn; [|reflexivity]. rewrite IH. now destruct (mapM f l).
Qed.
Lemma as_ref_shift k v : as_ref (shift_value k v) = rmap (fun l => (k + l)%nat) (as_ref v).
Proof. now destruct v. Qed.
Lemma conv_num_shift k u v : conv_num u (shift_value k v) = rmap (shift_value k) (conv_num u v).
Proof. now destruct v. Qed.
Lemma conv_tuple_shift k u v : conv_tuple u (shift_value k v) = rmap (shift_value k) (conv_tuple u v).
Proof.
  destruct v as [|q|t l|l|]; try reflexivity. cbn [shift_value conv_tuple]. rewrite (mapM_shift k _ (shift_value k)) by apply conv_num_shift.
  now destruct (mapM (conv_num u) l).
Qed.
Definition shift_todo (k : nat) (t : todo) : todo :=
  match t with Convert l => Convert (map (fun x => (k + x)%nat) l) | Replace v => Replace (shift_value k v) | Skip => Skip end.
Lemma plan_shift k u v : plan u (shift_value k v) = rmap (shift_todo k) (plan u v).
Proof.
  destruct v as [|q|t l|l|]; try reflexivity. destruct l as [|a [|b l]]; try reflexivity; [now destruct a as [| |[] ?| |]|].
  pose proof (mapM_shift k as_ref _ (a :: b :: l) (as_ref_shift k)) as M1.
  pose proof (mapM_shift k (conv_num u) _ (a :: b :: l) (conv_num_shift k u)) as M2.
  pose proof (mapM_shift k (conv_tuple u) _ (a :: b :: l) (conv_tuple_shift k u)) as M3.
  destruct a as [|q|[] l0|l0|]; unfold plan; cbn [shift_value map] in *.
  - rewrite M2. now destruct (mapM (conv_num u) (VNone :: b :: l)).
  - rewrite M2. now destruct (mapM (conv_num u) (VNum q :: b :: l)).
  - rewrite M3. now destruct (mapM (conv_tuple u) (VSeq true l0 :: b :: l)).
  - rewrite M2. now destruct (mapM (conv_num u) (VSeq false l0 :: b :: l)).
  - rewrite M1. now destruct (mapM as_ref (VRef l0 :: b :: l)).
  - rewrite M2. now destruct (mapM (conv_num u) (VOther :: b :: l)).
Qed.
Lemma foldM_sim {A B C D} (f : A -> B -> res A) (g : C -> D -> res C) (i : C -> A) (j : D -> B) :
  (forall c d, f (i c) (j d) = rmap i (g c d)) -> forall l c, foldM f (i c) (map j l) = rmap i (foldM g c l).
Proof. intros E. induction l as [|d l IH]; intros c; cbn; [reflexivity|]. rewrite E. destruct (g c d); cbn; [apply IH|reflexivity]. Qed.

Section Copy.
Variable h0 : heap.
Let n := List.length h0.
Definition after (h : heap) : heap := (h0 ++ map (shift_obj n) h)%list.
Lemma hget_after h l : hget (after h) (n + l)%nat = option_map (shift_obj n) (hget h l).
Proof. unfold hget, after, n. rewrite nth_error_app2 by lia. replace (List.length h0 + l - List.length h0)%nat with l by lia. apply nth_error_map. Qed.
Lemma hset_after h l f g : (forall o, f (shift_obj n o) = shift_obj n (g o)) -> hset (after h) (n + l)%nat f = after (hset h l g).
Proof.
  intros E. unfold after, n. rewrite hset_app. f_equal. fold n.
  revert l. induction h as [|x t IH]; intros [|l]; cbn; try reflexivity; f_equal; auto.
Qed.
Lemma convert_after u : forall fuel h l, convert fuel u (after h) (n + l)%nat = rmap after (convert fuel u h l).
Proof.
  induction fuel as [|fuel IH]; intros h l; [reflexivity|]. cbn [convert]. rewrite hget_after.
  destruct (hget h l) as [o|]; [|reflexivity]. cbn [option_map]. cbn [shift_obj po_units po_conv po_attrs].
  destruct (po_units o) as [w|]; [|reflexivity]. destruct (unit_eqb w u); [reflexivity|].
  rewrite (hset_after h l (with_units u) (with_units u)) by reflexivity.
  rewrite <- (map_id (po_conv o)) at 1. apply (foldM_sim _ _ after (fun x => x)). intros hh nm.
  rewrite getattr_shift. destruct (getattr nm (po_attrs o)) as [v|]; [|reflexivity]. cbn [option_map]. rewrite plan_shift.
  destruct (plan u v) as [[ls|v'|]|e]; cbn [rmap bind shift_todo]; try reflexivity.
  - apply foldM_sim. intros. apply IH.
  - rewrite (hset_after _ _ _ (put nm v')); [reflexivity|]. intros o'. apply put_shift.
Qed.
Lemma convert_all_after u fuel h ls : convert_all fuel u (after h) (map (fun l => (n + l)%nat) ls) = rmap after (convert_all fuel u h ls).
Proof. apply foldM_sim. intros. apply convert_after. Qed.
Lemma move_value_shift d k v : move_value d (shift_value k v) = rmap (shift_value k) (move_value d v).
Proof.
  destruct v as [|q|t l|l|]; try reflexivity. destruct l as [|a [|b [|c l]]]; try reflexivity.
  - now destruct a.
  - now destruct a, b.
  - now destruct a, b.
Qed.
Lemma inner_list_shift k o : inner_list (shift_obj k o) = rmap (map (fun l => (k + l)%nat)) (inner_list o).
Proof.
  unfold inner_list. cbn [shift_obj po_attrs]. rewrite getattr_shift. destruct (getattr "primitives" (po_attrs o)) as [v|]; [|reflexivity].
  cbn [option_map]. destruct v as [|q|t l|l|]; try reflexivity. cbn [shift_value]. apply mapM_shift. apply as_ref_shift.
Qed.
Lemma offset_after d : forall fuel h l, offset_obj fuel d (after h) (n + l)%nat = rmap after (offset_obj fuel d h l).
Proof.
  induction fuel as [|fuel IH]; intros h l; [reflexivity|]. cbn [offset_obj]. rewrite hget_after.
  destruct (hget h l) as [o|]; [|reflexivity]. cbn [option_map].
  assert (E : foldM (fun hh nm => move_attr d (shift_obj n o) hh (n + l)%nat nm) (after h) point_attrs =
              rmap after (foldM (fun hh nm => move_attr d o hh l nm) h point_attrs)).
  { rewrite <- (map_id point_attrs) at 1. apply (foldM_sim _ _ after (fun x => x)). intros hh nm. unfold move_attr.
    cbn [shift_obj po_attrs]. rewrite getattr_shift. destruct (getattr nm (po_attrs o)) as [v|]; [|reflexivity]. cbn [option_map].
    rewrite move_value_shift. destruct (move_value d v) as [v'|]; [|reflexivity]. cbn [rmap bind].
    rewrite (hset_after _ _ _ (put nm v')); [reflexivity|]. intros o'. apply put_shift. }
  rewrite E. destruct (foldM (fun hh nm => move_attr d o hh l nm) h point_attrs) as [h1|]; [|reflexivity]. cbn [rmap bind].
  rewrite inner_list_shift. destruct (inner_list o) as [ls|]; [|reflexivity]. cbn [rmap bind]. apply foldM_sim. intros. apply IH.
Qed.
Lemma offset_all_after d fuel h ls : offset_all fuel d (after h) (map (fun l => (n + l)%nat) ls) = rmap after (offset_all fuel d h ls).
Proof. apply foldM_sim. intros. apply offset_after. Qed.
End Copy.

Lemma converted_copy_spec fuel u h ls :
  converted_copy fuel u h ls =
  rmap (fun h' => (h ++ map (shift_obj (List.length h)) h', map (fun l => (List.length h + l)%nat) ls)%list) (convert_all fuel u h ls).
Proof.
  unfold converted_copy, deepcopy. change (h ++ map (shift_obj (Datatypes.length h)) h)%list with (after h h).
  rewrite convert_all_after. now destruct (convert_all fuel u h ls).
Qed.
Lemma offset_copy_spec fuel d h ls :
  offset_copy fuel d h ls =
  rmap (fun h' => (h ++ map (shift_obj (List.length h)) h', map (fun l => (List.length h + l)%nat) ls)%list) (offset_all fuel d h ls).
Proof.
  unfold offset_copy, deepcopy. change (h ++ map (shift_obj (Datatypes.length h)) h)%list with (after h h).
  rewrite offset_all_after. now destruct (offset_all fuel d h ls).
Qed.

(** *** Sequences of conversions *)
Lemma conversion_sequence w h ls h1 us : proper_heap h -> Forall (fun l => l < List.length h)%nat ls -> all_in w h ls ->
  convert_all (enough h) (other w) h ls = Ok h1 ->
  foldM (fun g u => convert_all (enough g) u g ls) h us = Ok (if unit_eqb (last us w) w then h else h1).
Proof.
  intros P F A E. pose proof (conversion_back (other w) h ls h1 P F) as B. rewrite other_other in B. destruct (B A E) as (B1 & B2 & B3). clear B.
  assert (I1 : convert_all (enough h1) (other w) h1 ls = Ok h1) by (apply conversion_idle; exact B2).
  assert (I0 : convert_all (enough h) w h ls = Ok h).
  { apply conversion_idle. intros l L. rewrite Forall_forall in F. pose proof (F l L) as R. apply hget_some in R as [o G]. exists o. split; [exact G|].
    destruct (A l l o L (Part_self _ _) G) as [X|[X _]]; auto. }
  assert (EW : unit_eqb w w = true) by now apply unit_eqb_spec.
  assert (OW : unit_eqb (other w) w = false) by now destruct w.
  assert (Z : forall us, foldM (fun g u => convert_all (enough g) u g ls) h us = Ok (if unit_eqb (last us w) w then h else h1) /\
              foldM (fun g u => convert_all (enough g) u g ls) h1 us = Ok (if unit_eqb (last us (other w)) w then h else h1)).
  { intros vs. induction vs as [|v vs [IH1 IH2]].
    - cbn. rewrite EW, OW. auto.
    - assert (LC : forall d, last (v :: vs) d = last vs v) by (clear; revert v; induction vs as [|x t IH]; intros v d; [reflexivity|]; change (last (x :: t) d = last (x :: t) v); now rewrite !IH).
      rewrite !LC. cbn [foldM]. assert (V : v = w \/ v = other w) by (destruct v, w; auto). destruct V; subst v.
      + rewrite I0, B1. cbn [bind]. rewrite IH1. auto.
      + rewrite E, I1. cbn [bind]. rewrite IH2. auto. }
  apply Z.
Qed.

(** *** Moving *)
Definition pmoved (d : Qc * Qc) (ps : list string) (o : pobj) : pobj :=
  mkP (po_units o) (po_conv o) (map (fun a => if in_dec string_dec (fst a) ps then (fst a, moved_value d (snd a)) else a) (po_attrs o)).
Lemma pmoved_same d p q o : (forall n, In n p <-> In n q) -> pmoved d p o = pmoved d q o.
Proof.
  intros E. unfold pmoved. f_equal. apply map_ext. intros [n v]. cbn [fst snd].
  destruct (in_dec string_dec n p) as [I|I], (in_dec string_dec n q) as [J|J]; try reflexivity; exfalso; firstorder.
Qed.
Lemma pmoved_nil d o : pmoved d [] o = o.
Proof. destruct o as [u c a]. unfold pmoved. cbn. f_equal. transitivity (map (fun x : string * value => x) a); [|apply map_id]. apply map_ext. now intros [n v]. Qed.
Lemma pmoved_attrs d p o : po_attrs (pmoved d p o) = map (fun a => (fst a, if in_dec string_dec (fst a) p then moved_value d (snd a) else snd a)) (po_attrs o).
Proof. cbn [pmoved po_attrs]. apply map_ext. intros [n v]. cbn [fst snd]. now destruct (in_dec _ _ _). Qed.
Lemma pmoved_absent d n p o : getattr n (po_attrs o) = None -> pmoved d (n :: p) o = pmoved d p o.
Proof.
  intros G. unfold pmoved. f_equal. induction (po_attrs o) as [|[m v] a IH]; [reflexivity|]. cbn [getattr] in G. destruct (String.eqb m n) eqn:E; [discriminate|].
  cbn [map fst snd]. rewrite (IH G). f_equal. apply String.eqb_neq in E.
  destruct (in_dec string_dec m (n :: p)) as [[X|I]|I], (in_dec string_dec m p) as [J|J]; try reflexivity; exfalso; auto. apply I. now right.
Qed.
Lemma pmoved_put d n p o v : NoDup (map fst (po_attrs o)) -> ~ In n p -> getattr n (po_attrs o) = Some v ->
  put n (moved_value d v) (pmoved d p o) = pmoved d (n :: p) o.
Proof.
  intros N D G. unfold put. cbn [pmoved po_units po_conv po_attrs]. unfold pmoved. f_equal. revert N G.
  induction (po_attrs o) as [|[m w] a IH]; intros N G; [discriminate|]. cbn [map fst snd getattr] in *. inversion N as [|x y NI ND]; subst.
  destruct (String.eqb m n) eqn:E.
  - apply String.eqb_eq in E. subst m. injection G as ->. destruct (in_dec string_dec n p) as [I|I]; [contradiction|].
    cbn [setattr]. rewrite String.eqb_refl. destruct (in_dec string_dec n (n :: p)) as [J|J]; [|exfalso; apply J; now left]. f_equal.
    apply map_ext_in. intros [k z] K. cbn [fst snd]. assert (k <> n) by (intros ->; apply NI; apply in_map_iff; exists (n, z); auto).
    destruct (in_dec string_dec k p) as [I1|I1], (in_dec string_dec k (n :: p)) as [[I2|I2]|I2]; try reflexivity; exfalso; auto; try congruence. apply I2. now right.
  - pose proof E as E'. apply String.eqb_neq in E'. specialize (IH ND G).
    destruct (in_dec string_dec m p) as [I|I], (in_dec string_dec m (n :: p)) as [[J|J]|J]; try congruence; try (exfalso; auto; fail);
      cbn [setattr]; rewrite E; try (f_equal; exact IH). exfalso. apply J. now right.
Qed.
Lemma hset_ext_at h l f g : (forall o, hget h l = Some o -> f o = g o) -> hset h l f = hset h l g.
Proof.
  intros E. apply nth_error_ext. intros m. change (hget (hset h l f) m = hget (hset h l g) m). destruct (Nat.eq_dec m l) as [->|N].
  - rewrite !hget_hset_same. destruct (hget h l); [|reflexivity]. cbn. f_equal. now apply E.
  - now rewrite !hget_hset_other.
Qed.
Lemma hset_hset h l f g : hset (hset h l f) l g = hset h l (fun o => g (f o)).
Proof.
  apply nth_error_ext. intros m. change (hget (hset (hset h l f) l g) m = hget (hset h l (fun o => g (f o))) m). destruct (Nat.eq_dec m l) as [->|N].
  - rewrite !hget_hset_same. now destruct (hget h l).
  - now rewrite !hget_hset_other.
Qed.
Lemma move_attrs d h l o : hget h l = Some o -> movable o -> forall ps done, NoDup (rev ps ++ done)%list ->
  (forall n, In n ps -> In n point_names) ->
  foldM (fun h n => move_attr d o h l n) (hset h l (pmoved d done)) ps = Ok (hset h l (pmoved d (rev ps ++ done)%list)).
Proof.
  intros G (N & MP & _). induction ps as [|n ps IH]; intros done ND INC; [reflexivity|].
  cbn [foldM rev]. cbn [rev] in ND. rewrite <- app_assoc in ND |- *. cbn [app] in ND |- *. unfold move_attr at 1.
  assert (ND' : ~ In n done). { apply NoDup_remove_2 in ND. intros X. apply ND. apply in_or_app. now right. }
  destruct (getattr n (po_attrs o)) as [v|] eqn:GV.
  - destruct (MP n v (INC n (or_introl eq_refl)) GV) as (t & x & y & ->). cbn [move_value bind]. rewrite hset_hset.
    rewrite (hset_ext_at _ _ _ (pmoved d (n :: done))).
    + apply IH; [exact ND|]. intros m M. apply INC. now right.
    + intros o' G'. rewrite G in G'. injection G' as <-. exact (pmoved_put d n done o _ N ND' GV).
  - rewrite (hset_ext_at _ _ _ (pmoved d (n :: done))).
    + cbn [bind]. apply IH; [exact ND|]. intros m M. apply INC. now right.
    + intros o' G'. rewrite G in G'. injection G' as <-. symmetry. now apply pmoved_absent.
Qed.
Lemma moved_pmoved d o : pmoved d (rev point_attrs ++ [])%list o = moved d o.
Proof. unfold moved. fold (pmoved d point_names o). apply pmoved_same. intros n. cbn. tauto. Qed.
Lemma moved_contents d o : contents (moved d o) = contents o.
Proof.
  unfold contents. fold (pmoved d point_names o). change (moved d o) with (pmoved d point_names o). rewrite pmoved_attrs.
  rewrite (getattr_map (fun p => if in_dec string_dec (fst p) point_names then moved_value d (snd p) else snd p)).
  destruct (getattr "primitives" (po_attrs o)) as [v|]; [|reflexivity]. reflexivity.
Qed.
Lemma inner_list_contents o : movable o -> inner_list o = Ok (contents o).
Proof.
  intros (_ & _ & M). unfold inner_list, contents. destruct (getattr "primitives" (po_attrs o)) as [v|]; [|reflexivity].
  destruct (M v eq_refl) as (t & ls & ->). rewrite mapM_refs, links_refs. reflexivity.
Qed.
Definition mem (ms : list loc) (m : loc) : bool := existsb (Nat.eqb m) ms.
Lemma mem_in ms m : mem ms m = true <-> In m ms.
Proof. unfold mem. rewrite existsb_exists. split; [intros (x & I & E)|intros I; exists m]; [apply Nat.eqb_eq in E; now subst|]. split; [exact I|apply Nat.eqb_refl]. Qed.
Lemma members_length h ls ms : members h ls ms -> (List.length ls <= List.length ms)%nat.
Proof. induction 1; cbn; [lia|]. rewrite app_length. lia. Qed.
Lemma apply_ext f S S' h : (forall x, S x = S' x) -> apply f S h = apply f S' h.
Proof. intros E. apply nth_error_ext. intros m. change (hget (apply f S h) m = hget (apply f S' h) m). now rewrite !apply_get, E. Qed.
Lemma nodup_app {A} (a b : list A) : NoDup (a ++ b)%list -> NoDup a /\ NoDup b /\ (forall x, In x a -> ~ In x b).
Proof.
  induction a as [|x a IH]; intros N; [split; [constructor|split; [exact N|intros x []]]|]. cbn in N. inversion N as [|y z NI N']; subst.
  destruct (IH N') as (I1 & I2 & I3). split; [constructor; [intros X; apply NI; apply in_or_app; now left|exact I1]|]. split; [exact I2|].
  intros y [<-|Y] Z; [apply NI; apply in_or_app; now right|exact (I3 y Y Z)].
Qed.
Lemma offset_all_cons fuel d h l ls : offset_all fuel d h (l :: ls) = do h' <- offset_obj fuel d h l; offset_all fuel d h' ls.
Proof. reflexivity. Qed.
Lemma offset_obj_eq fuel d h l o : hget h l = Some o ->
  offset_obj (Datatypes.S fuel) d h l = do h1 <- foldM (fun h n => move_attr d o h l n) h point_attrs; do ls <- inner_list o; offset_all fuel d h1 ls.
Proof. intros G. cbn [offset_obj]. now rewrite G. Qed.
Lemma offset_members d h : forall ls ms, members h ls ms -> NoDup ms -> (forall m o, In m ms -> hget h m = Some o -> movable o) ->
  forall fuel done, (List.length ms <= fuel)%nat -> (forall x, In x done -> ~ In x ms) ->
  offset_all fuel d (apply (moved d) (mem done) h) ls = Ok (apply (moved d) (mem (ms ++ done)%list) h).
Proof.
  intros ls ms M. induction M as [|l o ls ms1 ms2 G M1 IH1 M2 IH2]; intros ND MV fuel done FU DJ; [reflexivity|].
  cbn [List.length] in FU. rewrite app_length in FU. destruct fuel as [|fuel]; [lia|].
  assert (LD : mem done l = false). { destruct (mem done l) eqn:E; [|reflexivity]. apply mem_in in E. exfalso. apply (DJ l E). now left. }
  assert (MO : movable o) by (eapply MV; [now left|exact G]).
  rewrite offset_all_cons, (offset_obj_eq _ _ _ _ o) by (now rewrite apply_get, LD).
  pose proof (move_attrs d (apply (moved d) (mem done) h) l o) as MA. rewrite apply_get, LD in MA. specialize (MA G MO point_attrs []).
  rewrite (hset_ext_at _ _ (pmoved d []) (fun o => o)) in MA by (intros; apply pmoved_nil).
  assert (HID : forall g, hset g l (fun o => o) = g).
  { intros g. apply nth_error_ext. intros m. change (hget (hset g l (fun o => o)) m = hget g m). destruct (Nat.eq_dec m l) as [->|N]; [rewrite hget_hset_same; now destruct (hget g l)|now apply hget_hset_other]. }
  rewrite HID in MA. rewrite MA; [|repeat constructor; cbn; intuition discriminate|intros n; cbn; tauto]. cbn [bind].
  rewrite (inner_list_contents _ MO). cbn [bind].
  rewrite (hset_ext_at _ _ _ (moved d)) by (intros; apply moved_pmoved).
  replace (hset (apply (moved d) (mem done) h) l (moved d)) with (apply (moved d) (mem (l :: done)) h).
  2:{ apply nth_error_ext. intros m. change (hget (apply (moved d) (mem (l :: done)) h) m = hget (hset (apply (moved d) (mem done) h) l (moved d)) m).
      destruct (Nat.eq_dec m l) as [->|N].
      - rewrite hget_hset_same, !apply_get, LD. cbn [mem existsb]. now rewrite Nat.eqb_refl.
      - rewrite hget_hset_other by exact N. rewrite !apply_get. cbn [mem existsb]. apply Nat.eqb_neq in N. now rewrite N. }
  inversion ND as [|x y NI ND']; subst. destruct (nodup_app _ _ ND') as (ND1 & ND2 & DJ12).
  rewrite (IH1 ND1); [|intros m om I; apply MV; right; apply in_or_app; now left|lia|].
  - cbn [bind].
    rewrite (IH2 ND2); [|intros m om I; apply MV; right; apply in_or_app; now right|lia|].
    + f_equal. apply apply_ext. intros x. apply Bool.eq_true_iff_eq. rewrite !mem_in. cbn [app]. cbn [In]. rewrite !in_app_iff. cbn [In]. tauto.
    + intros x X Y. apply in_app_iff in X as [X|[X|X]]; [exact (DJ12 x X Y)|subst; apply NI; apply in_or_app; now right|].
      apply (DJ x X). right. apply in_or_app. now right.
  - intros x [X|X] Y; [subst; apply NI; apply in_or_app; now left|]. apply (DJ x X). right. apply in_or_app. now left.
Qed.
Lemma offset_exact d h ls ms fuel : members h ls ms -> NoDup ms -> (forall m o, In m ms -> hget h m = Some o -> movable o) ->
  (List.length ms <= fuel)%nat -> exists h', offset_all fuel d h ls = Ok h' /\ List.length h' = List.length h /\ moves_exactly d h ms h'.
Proof.
  intros M ND MV FU. pose proof (offset_members d h ls ms M ND MV fuel [] FU) as E.
  rewrite (apply_ext _ (mem []) (fun _ => false)) in E by reflexivity. rewrite apply_none in E.
  exists (apply (moved d) (mem (ms ++ [])%list) h). split; [apply E; intros x []|]. split; [apply apply_length|].
  rewrite app_nil_r. intros m. rewrite apply_get. split; intros I.
  - apply mem_in in I. now rewrite I.
  - destruct (mem ms m) eqn:X; [|reflexivity]. apply mem_in in X. contradiction.
Qed.

Lemma copy_shape (h h' : heap) : (forall m, (m < List.length h)%nat -> hget (h ++ h')%list m = hget h m) /\ skipn (List.length h) (h ++ h')%list = h'.
Proof.
  split; [intros m L; unfold hget; now rewrite nth_error_app1|]. rewrite skipn_app, skipn_all, Nat.sub_diag. reflexivity.
Qed.
Lemma copy_untouched fuel u h ls :
  match converted_copy fuel u h ls with
  | Ok (g, ls') =>
      (forall m, (m < List.length h)%nat -> hget g m = hget h m) /\
      exists h', convert_all fuel u h ls = Ok h' /\ skipn (List.length h) g = map (shift_obj (List.length h)) h' /\
                 ls' = map (fun l => (List.length h + l)%nat) ls
  | Err e => convert_all fuel u h ls = Err e
  end.
Proof.
  rewrite converted_copy_spec. destruct (convert_all fuel u h ls) as [h'|e]; [|reflexivity]. cbn [rmap].
  destruct (copy_shape h (map (shift_obj (List.length h)) h')) as [A B]. split; [exact A|]. eexists. split; [reflexivity|]. split; [exact B|reflexivity].
Qed.
Lemma offset_copy_untouched fuel d h ls :
  match offset_copy fuel d h ls with
  | Ok (g, ls') =>
      (forall m, (m < List.length h)%nat -> hget g m = hget h m) /\
      exists h', offset_all fuel d h ls = Ok h' /\ skipn (List.length h) g = map (shift_obj (List.length h)) h' /\
                 ls' = map (fun l => (List.length h + l)%nat) ls
  | Err e => offset_all fuel d h ls = Err e
  end.
Proof.
  rewrite offset_copy_spec. destruct (offset_all fuel d h ls) as [h'|e]; [|reflexivity]. cbn [rmap].
  destruct (copy_shape h (map (shift_obj (List.length h)) h')) as [A B]. split; [exact A|]. eexists. split; [reflexivity|]. split; [exact B|reflexivity].
Qed.

(** ** Classes *)
Lemma classes_lemma : forall o, of_class o -> NoDup (po_conv o) /\ incl (po_conv o) (map fst (po_attrs o)) /\
  forall a, In a (map fst (po_attrs o)) -> (In a (po_conv o) <-> ~ In a dimensionless).
Proof.
  intros o H.
  assert (Y : forall l m : list string, forallb (fun x => if in_dec string_dec x m then true else false) l = true -> incl l m).
  { intros l m E x Hx. rewrite forallb_forall in E. specialize (E _ Hx). destruct (in_dec string_dec x m); [auto|discriminate]. }
  assert (Z : forall c l : list string, forallb (fun x => Bool.eqb (if in_dec string_dec x c then true else false) (if in_dec string_dec x dimensionless then false else true)) l = true ->
    forall a, In a l -> (In a c <-> ~ In a dimensionless)).
  { intros c l E a Ha. rewrite forallb_forall in E. specialize (E _ Ha). destruct (in_dec string_dec a c), (in_dec string_dec a dimensionless); try discriminate; tauto. }
  destruct H; (split; [cbn; repeat (constructor; [cbn; intuition discriminate|]); constructor|split; [apply Y; reflexivity|apply Z; reflexivity]]).
Qed.
