(** Lemmas about boards from directories. *)
From Verif Require Import PyBase LayersProofs DirSpec.
Open Scope list_scope.

Definition keep (f : text) : bool := negb (match f with c :: _ => ceq c "."%char | [] => false end) && negb (mem_text f os_files).
Lemma visible_filter fs : visible fs = filter keep fs.
Proof.
  unfold visible. cbn zeta. induction fs as [|f fs IH]; [reflexivity|]. cbn [filter]. unfold keep at 1.
  destruct (negb (match f with c :: _ => ceq c "."%char | [] => false end)); cbn [andb filter]; [|exact IH]. destruct (negb (mem_text f os_files)); [now rewrite IH|exact IH].
Qed.
Lemma keep_false f : keep f = false <-> ignored f.
Proof.
  unfold keep, ignored. rewrite <- negb_orb, negb_false_iff, orb_true_iff. split.
  - intros [H|H].
    + left. destruct f as [|c f]; [discriminate|]. apply ceq_true in H. subst. eauto.
    + unfold mem_text, os_files in H. cbn [existsb] in H. rewrite !orb_true_iff in H. destruct H as [H|[H|[H|H]]]; try discriminate; apply teq_true in H; subst; [left; eexists; reflexivity|auto|auto].
  - intros [(r & ->)|[->| ->]]; [left; apply ceq_refl|right; reflexivity|right; reflexivity].
Qed.
Lemma keep_true f : ~ ignored f -> keep f = true.
Proof. intros H. destruct (keep f) eqn:E; [reflexivity|]. apply keep_false in E. contradiction. Qed.

Section Dir.
Variable read : text -> res camkind.
Variable dir : text.
Local Notation layers_of := (DirSpec.layers_of dir).
Lemma load_ok fs ks : board_files read fs ks -> forall id,
  load read dir (visible fs) id = Ok (layers_of id ks, map (fun x => board_stem (l_class (fst x)) (fst (snd x))) (combine (layers_of id ks) ks)).
Proof.
  intros H. rewrite visible_filter. induction H as [|f fs ks I H IH|f fs ks I U H IH|f k fs ks I R H IH]; intros id.
  - reflexivity.
  - cbn [filter]. apply keep_false in I. rewrite I. apply IH.
  - cbn [filter]. rewrite (keep_true f I). cbn [load]. destruct U as [-> | ->]; apply IH.
  - cbn [filter]. rewrite (keep_true f I). cbn [load]. rewrite R, IH. reflexivity.
Qed.
Lemma load_error fs e : board_error read fs e -> forall id, load read dir (visible fs) id = Err e.
Proof.
  intros H. rewrite visible_filter. induction H as [f fs e I R N1 N2|f fs e I H IH|f fs e U H IH|f k fs e R H IH]; intros id; cbn [filter].
  - rewrite (keep_true f I). cbn [load]. rewrite R. destruct e; congruence.
  - apply keep_false in I. rewrite I. apply IH.
  - destruct (keep f); [|apply IH]. cbn [load]. destruct U as [-> | ->]; apply IH.
  - destruct (keep f); [|apply IH]. cbn [load]. rewrite R, IH. reflexivity.
Qed.

(** ** Names *)
Lemma splitext_plain stem ext : dotless ext -> proper stem -> splitext (stem ++ "."%char :: ext) = (stem, "."%char :: ext).
Proof.
  intros D (c & I & N). unfold splitext. rewrite last_dot_app by exact D.
  assert (E : forallb (ceq "."%char) stem = false).
  { destruct (forallb (ceq "."%char) stem) eqn:F; [|reflexivity]. rewrite forallb_forall in F. specialize (F c I). apply ceq_true in F. congruence. }
  now rewrite E.
Qed.
Lemma last_dot_split s a b : last_dot s = Some (a, b) -> exists e, b = "."%char :: e /\ dotless e /\ s = a ++ b.
Proof.
  revert a b. induction s as [|c s IH]; intros a b; cbn [last_dot]; [discriminate|]. destruct (last_dot s) as [[a' b']|] eqn:E.
  - intros H. injection H as <- <-. destruct (IH a' b' eq_refl) as (e & -> & D & ->). eauto.
  - destruct (ceq c "."%char) eqn:C; [|discriminate]. intros H. injection H as <- <-. apply ceq_true in C. subst c. exists s. split; [reflexivity|]. split; [|reflexivity].
    clear IH. intros I. clear -E I. induction s as [|x s IH]; [contradiction|]. cbn [last_dot] in E. destruct (last_dot s) as [[a' b']|]; [discriminate|]. destruct (ceq x "."%char) eqn:C; [discriminate|].
    destruct I as [-> | I]; [now rewrite ceq_refl in C|]. now apply IH.
Qed.
Lemma splitext_split s n e : splitext s = (n, e) -> (e = [] /\ n = s) \/ (exists x, e = "."%char :: x /\ dotless x /\ s = n ++ e).
Proof.
  unfold splitext. destruct (last_dot s) as [[a b]|] eqn:E; [destruct (forallb (ceq "."%char) a)|]; intros H; injection H as <- <-; auto. right. now apply last_dot_split.
Qed.
Lemma in_signatures c t : mem_text t (layer_signatures c) = true <-> exists h n, In h hints /\ h_layer h = c /\ (In n (h_ext h) \/ In n (h_name h)) /\ t = T n.
Proof.
  unfold layer_signatures. split.
  - destruct (find _ hints) as [h|] eqn:F; [|discriminate]. apply find_some in F as [I E]. apply String.eqb_eq in E. intros M. apply existsb_exists in M as (n & J & Q). apply teq_true in Q.
    apply in_app_or in J. eauto 10.
  - intros (h & n & I & E & J & ->). assert (U : find (fun h => String.eqb (h_layer h) c) hints = Some h).
    { subst c. cbn in I. repeat (destruct I as [<-|I]; [reflexivity|]). contradiction. }
    rewrite U. apply existsb_exists. exists n. split; [now apply in_or_app|apply teq_true; reflexivity].
Qed.
Lemma sig_test c s : dotless s -> (mem_text (skipn 1 ("."%char :: s)) (layer_signatures c) || (String.eqb c "drill" && text_in (T "drill") ("."%char :: s)) = true <-> signature c s).
Proof.
  intros D. cbn [skipn]. unfold signature. rewrite orb_true_iff, in_signatures, andb_true_iff, String.eqb_eq.
  assert (X : text_in (T "drill") ("."%char :: s) = true <-> contains (T "drill") s).
  { rewrite text_in_true by discriminate. split; intros (a & b & E).
    - destruct a as [|x a]; [discriminate|]. exists a, b. injection E as E1 E2. exact E2.
    - exists ("."%char :: a), b. now rewrite E. }
  rewrite X. reflexivity.
Qed.
Lemma stem_called c f b : called c f b -> board_stem c f = b.
Proof.
  intros [b' e P D N|b' s e P D1 D2 S]; unfold board_stem.
  - rewrite splitext_plain by assumption. cbn [fst]. destruct (splitext b') as [n x] eqn:E. destruct (splitext_split _ _ _ E) as [[-> ->]|(y & -> & Y & Q)].
    + cbn [skipn]. destruct (mem_text [] (layer_signatures c)) eqn:M; [|destruct (String.eqb c "drill"); reflexivity].
      exfalso. apply in_signatures in M as (h & n & I & _ & J & Q). assert (Z : n = EmptyString) by (destruct n; [reflexivity|discriminate]). subst n.
      cbn in I. repeat (destruct I as [<-|I]; [cbn in J; intuition discriminate|]). contradiction.
    + match goal with |- (if ?t then _ else _) = _ => destruct t eqn:M end; [|reflexivity]. exfalso. apply (proj1 (sig_test c y Y)) in M. exact (N n y Q Y M).
  - change (b' ++ "."%char :: s ++ "."%char :: e) with (b' ++ ("."%char :: s) ++ "."%char :: e). rewrite app_assoc. rewrite splitext_plain; [|assumption|].
    2:{ destruct P as (x & I & Nx). exists x. split; [apply in_or_app; now left|exact Nx]. }
    cbn [fst]. rewrite splitext_plain by assumption. rewrite (proj2 (sig_test c s D1) S). reflexivity.
Qed.

Lemma C124_lemma files ks name : board_files read files ks ->
  exists b n, from_directory read dir name files = Ok (b, n) /\ Permutation.Permutation b (filter known (layers_of 0 ks)) /\ Sorted.StronglySorted above b.
Proof.
  intros H. unfold from_directory. rewrite (load_ok files ks H 0). cbn [bind fst snd]. eexists _, _. split; [reflexivity|].
  destruct (C46_lemma (layers_of 0 ks)) as (A & B & _). split; [exact A|exact B].
Qed.
Lemma C124_error_lemma files e name : board_error read files e -> from_directory read dir name files = Err e.
Proof. intros H. unfold from_directory. now rewrite (load_error files e H 0). Qed.
Lemma board_cases files : (exists ks, board_files read files ks) \/ (exists e, board_error read files e).
Proof.
  induction files as [|f fs IH]; [left; eexists; constructor|]. destruct (keep f) eqn:K.
  - assert (N : ~ ignored f) by (intros I; apply keep_false in I; congruence). destruct (read f) as [k|e] eqn:R.
    + destruct IH as [(ks & H)|(e & H)]; [left; eexists; eapply files_loaded; eauto|right; exists e; eapply error_loaded; eauto].
    + assert (U : unreadable (read f) \/ (e <> ParseError /\ e <> IOError)) by (rewrite R; unfold unreadable; destruct e; auto; right; split; discriminate).
      destruct U as [U|[N1 N2]]; [|right; exists e; now apply error_here].
      destruct IH as [(ks & H)|(e' & H)]; [left; eexists; eapply files_skipped; eauto|right; exists e'; now apply error_skipped].
  - apply keep_false in K. destruct IH as [(ks & H)|(e & H)]; [left; eexists; eapply files_ignored; eauto|right; exists e; now apply error_ignored].
Qed.

(** ** The name of the board *)
Lemma same_text_spec names n : same_text names n = true <-> Forall (eq n) names.
Proof.
  unfold same_text. rewrite forallb_forall, Forall_forall. split; intros H x I.
  - now apply teq_true, H.
  - apply teq_true. now apply H.
Qed.
Lemma names_called ks b : forall id, Forall2 (fun l x => called (l_class l) (fst x) b) (layers_of id ks) ks ->
  Forall (eq b) (map (fun x => board_stem (l_class (fst x)) (fst (snd x))) (combine (layers_of id ks) ks)).
Proof.
  intros id F. induction F as [|l x ls ks' C F IH]; [constructor|]. cbn [combine map fst snd]. constructor; [symmetry; now apply stem_called|exact IH].
Qed.
Lemma C125_lemma files ks : board_files read files ks ->
  (forall n, exists l, from_directory read dir (Some n) files = Ok (l, n)) /\
  (forall b, ks <> [] -> Forall2 (fun l x => called (l_class l) (fst x) b) (layers_of 0 ks) ks ->
     exists l, from_directory read dir None files = Ok (l, b)) /\
  (ks = [] -> exists l, from_directory read dir None files = Ok (l, basename dir)) /\
  (forall i j f g k k' l l' b b', nth_error ks i = Some (f, k) -> nth_error ks j = Some (g, k') ->
     nth_error (layers_of 0 ks) i = Some l -> nth_error (layers_of 0 ks) j = Some l' ->
     called (l_class l) f b -> called (l_class l') g b' -> b <> b' -> exists x, from_directory read dir None files = Ok (x, basename dir)).
Proof.
  intros H. unfold from_directory. rewrite (load_ok files ks H 0). cbn [bind fst snd]. split; [|split; [|split]].
  - intros n. eauto.
  - intros b NE F. apply names_called in F. set (ns := map _ _) in *. assert (L : ns <> []).
    { subst ns. destruct ks as [|[f k] ks]; [contradiction|]. discriminate. }
    destruct ns as [|n ns]; [contradiction|]. apply Forall_cons_iff in F as [<- F]. rewrite (proj2 (same_text_spec ns b) F). eauto.
  - intros ->. cbn. eauto.
  - intros i j f g k k' l l' b b' E1 E2 L1 L2 C1 C2 N. set (ns := map _ _).
    assert (NI : forall i f k l b, nth_error ks i = Some (f, k) -> nth_error (layers_of 0 ks) i = Some l -> called (l_class l) f b -> In b ns).
    { clear -read. intros i f k l b E L C. subst ns. apply in_map_iff. exists (l, (f, k)). split; [now apply stem_called|]. clear C. revert i E L. generalize 0%nat as id.
      induction ks as [|[f0 k0] ks IH]; intros id [|i] E L; try discriminate.
      - cbn in E, L. injection E as <- <-. injection L as <-. now left.
      - cbn in E, L. right. exact (IH _ _ E L). }
    destruct ns as [|n ns'] eqn:Q; [eauto|]. destruct (same_text ns' n) eqn:S; [|eauto]. exfalso. apply same_text_spec in S. rewrite Forall_forall in S.
    assert (A1 : forall x, In x (n :: ns') -> x = n) by (intros x [<-|I]; [reflexivity|symmetry; now apply S]).
    apply N. rewrite (A1 b (NI _ _ _ _ _ E1 L1 C1)). symmetry. exact (A1 b' (NI _ _ _ _ _ E2 L2 C2)).
Qed.
End Dir.
