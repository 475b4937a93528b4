(** Proofs about format detection, layer names, layer sorting and board sides. *)
From Coq Require Import Permutation Sorted Lia.
From Verif Require MacroProofs.
From Verif Require Import LayersSpec.
Open Scope list_scope.

Ltac closed_ceq := repeat match goal with |- context [ceq ?a ?b] => let v := eval vm_compute in (ceq a b) in change (ceq a b) with v end.

(** ** Detection *)

Lemma starts_with_true p : forall s, starts_with p s = true <-> exists b, s = p ++ b.
Proof.
  induction p as [|x p IH]; intros s; cbn.
  - split; eauto.
  - destruct s as [|y s]; [split; [discriminate|intros [b Hb]; discriminate]|].
    rewrite Bool.andb_true_iff, ceq_true, IH. split.
    + intros [-> [b ->]]. eauto.
    + intros [b Hb]. injection Hb as -> ->. eauto.
Qed.

Lemma text_in_true p s : p <> [] -> text_in p s = true <-> contains p s.
Proof.
  intros Hp. unfold contains. induction s as [|c s IH].
  - cbn. destruct p as [|x p]; [easy|]. cbn. split; [discriminate|]. intros (a & b & H). destruct a; discriminate.
  - cbn [text_in]. rewrite Bool.orb_true_iff, starts_with_true, IH. split.
    + intros [[b H]|(a & b & H)]; [exists [], b; exact H|]. exists (c :: a), b. cbn. now rewrite H.
    + intros (a & b & H). destruct a as [|x a]; [left; eauto|]. injection H as -> H. right. eauto.
Qed.

Lemma words_blank a s : blank a -> words (a ++ s) = words s.
Proof. induction 1 as [|c a Hc _ IH]; cbn; [reflexivity|]. now rewrite Hc. Qed.

Lemma words_cons c s : is_space c = false ->
  exists w r, words (c :: s) = (c :: w) :: words r /\ s = w ++ r /\ Forall (fun c => is_space c = false) w /\
    (r = [] \/ exists d r', r = d :: r' /\ is_space d = true).
Proof.
  revert c. induction s as [|d s IH]; intros c Hc.
  - exists [], []. cbn. rewrite Hc. auto.
  - destruct (is_space d) eqn:Hd.
    + exists [], (d :: s). change (words (c :: d :: s)) with (if is_space c then words (d :: s) else if is_space d then [c] :: words (d :: s)
        else match words (d :: s) with w :: ws => (c :: w) :: ws | [] => [[c]] end). rewrite Hc, Hd. repeat split; auto. right. eauto.
    + destruct (IH d Hd) as (w & r & E & Hs & Hw & Hr). exists (d :: w), r.
      change (words (c :: d :: s)) with (if is_space c then words (d :: s) else if is_space d then [c] :: words (d :: s)
        else match words (d :: s) with w :: ws => (c :: w) :: ws | [] => [[c]] end). rewrite Hc, Hd, E, Hs. repeat split; auto.
Qed.

Lemma lead_blank s : exists a r, s = a ++ r /\ blank a /\ (r = [] \/ exists c r', r = c :: r' /\ is_space c = false).
Proof.
  induction s as [|c s (a & r & -> & Ha & Hr)].
  - exists [], []. repeat split; auto. constructor.
  - destruct (is_space c) eqn:Hc.
    + exists (c :: a), r. repeat split; auto. constructor; auto.
    + exists [], (c :: a ++ r). repeat split; [constructor|]. right. eauto.
Qed.

Lemma words_job l : (exists r, words l = T "P" :: T "JOB" :: r) <-> job_line l.
Proof.
  split.
  - intros [k Hk]. destruct (lead_blank l) as (a & r & -> & Ha & Hr). rewrite (words_blank _ _ Ha) in Hk.
    destruct Hr as [->|(c & r' & -> & Hc)]; [discriminate|].
    destruct (words_cons c r' Hc) as (w & r & E & -> & Hw & Hr). rewrite E in Hk.
    injection Hk as -> Hw0 Hk. destruct w; [|discriminate Hw0].
    destruct (lead_blank r) as (b & q & -> & Hb & Hq). rewrite (words_blank _ _ Hb) in Hk.
    destruct Hq as [->|(d & q' & -> & Hd)]; [discriminate|].
    destruct (words_cons d q' Hd) as (w & q & E' & -> & Hw' & Hq). rewrite E' in Hk. injection Hk as -> Hk1 _.
    subst w. exists a, b, q. split; [reflexivity|]. split; [exact Ha|]. split; [exact Hb|]. split; [|exact Hq].
    intros ->. destruct Hr as [Hr|(x & y & Hr & Hx)]; [discriminate|]. cbn in Hr. injection Hr as <- _. congruence.
  - intros (a & b & r & -> & Ha & Hb & Hn & Hr). rewrite (words_blank _ _ Ha).
    destruct b as [|s b]; [easy|]. inversion Hb as [|? ? Hs Hb']; subst.
    destruct r as [|c r].
    + exists []. cbn [T list_ascii_of_string app words]. rewrite Hs. change (is_space "P") with false. cbv iota.
      f_equal. rewrite words_blank by exact Hb'. reflexivity.
    + destruct Hr as [Hr|(c' & r' & Hr & Hc)]; [discriminate|]. injection Hr as <- <-. exists (words r).
      cbn [T list_ascii_of_string app words]. rewrite Hs. change (is_space "P") with false. cbv iota.
      f_equal. rewrite words_blank by exact Hb'. cbn [words]. change (is_space "J") with false. change (is_space "O") with false. change (is_space "B") with false.
      cbv iota. rewrite Hc. reflexivity.
Qed.

Lemma line_format_tells l : match line_format l with Unknown => silent l | f => tells l f end.
Proof.
  unfold line_format, silent.
  destruct (text_in (T "M48") l) eqn:H1.
  { constructor. now apply text_in_true. }
  assert (N1 : ~ contains (T "M48") l) by (rewrite <- text_in_true by easy; congruence).
  destruct (text_in (T "%FS") l) eqn:H2.
  { constructor; [exact N1|]. now apply text_in_true. }
  assert (N2 : ~ contains (T "%FS") l) by (rewrite <- text_in_true by easy; congruence).
  destruct (words l) as [|a [|b r]] eqn:E.
  - intros f Hf. inversion Hf as [| |? ? J]; try contradiction. apply words_job in J. destruct J; congruence.
  - intros f Hf. inversion Hf as [| |? ? J]; try contradiction. apply words_job in J. destruct J; congruence.
  - destruct (teq a (T "P")) eqn:Ea; destruct (teq b (T "JOB")) eqn:Eb; cbn [andb].
    + apply teq_true in Ea, Eb. subst. apply tells_ipc; auto. apply words_job. eauto.
    + intros f Hf. inversion Hf as [| |? ? J]; try contradiction. apply words_job in J. destruct J as [k J].
      rewrite E in J. injection J as -> -> _. now rewrite teq_refl in Eb.
    + intros f Hf. inversion Hf as [| |? ? J]; try contradiction. apply words_job in J. destruct J as [k J].
      rewrite E in J. injection J as -> -> _. now rewrite teq_refl in Ea.
    + intros f Hf. inversion Hf as [| |? ? J]; try contradiction. apply words_job in J. destruct J as [k J].
      rewrite E in J. injection J as -> -> _. now rewrite teq_refl in Ea.
Qed.

Lemma tells_unique l f g : tells l f -> tells l g -> f = g.
Proof. intros H K; destruct H, K; try reflexivity; contradiction. Qed.

Lemma line_format_silent l : silent l <-> line_format l = Unknown.
Proof.
  pose proof (line_format_tells l) as H. split.
  - intros S. destruct (line_format l); try reflexivity; now apply S in H.
  - intros E. now rewrite E in H.
Qed.

Lemma line_format_is l f : tells l f -> line_format l = f /\ f <> Unknown.
Proof.
  intros Hf. pose proof (line_format_tells l) as H. split.
  - destruct (line_format l); try (eapply tells_unique; eassumption). now apply H in Hf.
  - intros ->. inversion Hf.
Qed.

Lemma split_text_of ls : ls <> [] -> Forall is_line ls -> split_on nl (text_of ls) = ls.
Proof.
  induction ls as [|l ls IH]; [easy|]. intros _ H. inversion H as [|? ? Hl Hls]; subst.
  assert (S1 : split_on nl l = [l]).
  { clear - Hl. unfold is_line in Hl. induction l as [|c l IH]; [reflexivity|]. cbn [split_on]. rewrite IH by (intro; apply Hl; now right).
    destruct (ceq c nl) eqn:E; [apply ceq_true in E; exfalso; apply Hl; now left|reflexivity]. }
  destruct ls as [|l' ls]; [exact S1|]. change (text_of (l :: l' :: ls)) with (l ++ nl :: text_of (l' :: ls)).
  rewrite MacroProofs.split_on_app by exact Hl. now rewrite IH.
Qed.

Lemma detect_first pre : forall l post f, Forall silent pre -> tells l f -> detect_lines (pre ++ l :: post) = f.
Proof.
  induction pre as [|x pre IH]; intros l post f Hp Hf; cbn [app detect_lines].
  - destruct (line_format_is _ _ Hf) as [-> N]. now destruct f.
  - inversion Hp as [|? ? Hx Hp']; subst. apply line_format_silent in Hx. rewrite Hx. now apply IH.
Qed.

Lemma detect_none ls : detect_lines ls = Unknown <-> Forall silent ls.
Proof.
  induction ls as [|l ls IH]; [split; auto|]. cbn [detect_lines]. split.
  - destruct (line_format l) eqn:E; try discriminate. intros H. constructor; [now apply line_format_silent|now apply IH].
  - intros H. inversion H as [|? ? Hl Hls]; subst. apply line_format_silent in Hl. rewrite Hl. now apply IH.
Qed.

Lemma C48_lemma : forall ls, ls <> [] -> Forall is_line ls ->
  (forall pre l post f, ls = pre ++ l :: post -> Forall silent pre -> tells l f ->
     detect_file_format (text_of ls) = f /\
     loads_with (text_of ls) = match f with Excellon => Ok LoadExcellon | Rs274x => Ok LoadGerber | IpcD356 => Ok LoadIpc | Unknown => Err ParseError end) /\
  (detect_file_format (text_of ls) = Unknown <-> Forall silent ls) /\
  (loads_with (text_of ls) = Err ParseError <-> Forall silent ls).
Proof.
  intros ls N H. unfold loads_with, detect_file_format. rewrite (split_text_of _ N H). split; [|split].
  - intros pre l post f -> Hp Hf. rewrite (detect_first _ _ _ _ Hp Hf). split; [reflexivity|]. now destruct f.
  - apply detect_none.
  - rewrite <- detect_none. destruct (detect_lines ls); split; try discriminate; reflexivity.
Qed.

(** ** Sorting *)

Lemma insert_perm x l : Permutation (insert x l) (x :: l).
Proof.
  induction l as [|y l IH]; [reflexivity|]. cbn. destruct (_ <? _)%Z; [|reflexivity].
  rewrite IH. apply perm_swap.
Qed.
Lemma sorted_perm l : Permutation (sorted l) l.
Proof. induction l as [|x l IH]; [reflexivity|]. cbn. rewrite insert_perm. now constructor. Qed.

Definition ord_le (x y : layer) := (l_order x <= l_order y)%Z.

Lemma insert_sorted x l : StronglySorted ord_le l -> StronglySorted ord_le (insert x l).
Proof.
  induction 1 as [|y l Hl IH Hy]; cbn; [repeat constructor|].
  destruct (Z.ltb_spec (l_order y) (l_order x)).
  - constructor; [exact IH|]. eapply Permutation_Forall; [apply Permutation_sym, insert_perm|].
    constructor; [unfold ord_le; lia|exact Hy].
  - constructor; [constructor; assumption|]. constructor; [unfold ord_le; lia|].
    eapply Forall_impl; [|exact Hy]. unfold ord_le. intros; lia.
Qed.
Lemma sorted_sorted l : StronglySorted ord_le (sorted l).
Proof. induction l; cbn; [constructor|now apply insert_sorted]. Qed.

Lemma insert_filter k x l : filter (fun y => l_order y =? k)%Z (insert x l) = filter (fun y => l_order y =? k)%Z (x :: l).
Proof.
  induction l as [|y l IH]; [reflexivity|]. cbn [insert]. destruct (Z.ltb_spec (l_order y) (l_order x)); [|reflexivity].
  cbn [filter] in *. rewrite IH. destruct (Z.eqb_spec (l_order y) k), (Z.eqb_spec (l_order x) k); try reflexivity. lia.
Qed.
Lemma sorted_filter k l : filter (fun y => l_order y =? k)%Z (sorted l) = filter (fun y => l_order y =? k)%Z l.
Proof. induction l as [|x l IH]; [reflexivity|]. cbn [sorted fold_right]. fold (sorted l). rewrite insert_filter. cbn. now rewrite IH. Qed.

Definition piece (ls : list layer) (c : string) : list layer :=
  if String.eqb c "internal" then sorted (of_class "internal" ls) else of_class c ls.
Definition all_classes : list string := layer_order ++ append_after.

Lemma sort_true ls : sort_layers ls true = flat_map (piece ls) all_classes.
Proof. unfold sort_layers, all_classes. rewrite flat_map_app. reflexivity. Qed.

Lemma in_of_class c ls x : In x (of_class c ls) <-> In x ls /\ l_class x = c.
Proof. unfold of_class. now rewrite filter_In, String.eqb_eq. Qed.

Lemma in_piece c ls x : In x (piece ls c) <-> In x ls /\ l_class x = c.
Proof.
  unfold piece. destruct (String.eqb_spec c "internal") as [->|_]; [|apply in_of_class].
  rewrite <- in_of_class. split; apply Permutation_in; [|apply Permutation_sym]; apply sorted_perm.
Qed.

Lemma piece_perm ls c : Permutation (piece ls c) (of_class c ls).
Proof. unfold piece. destruct (String.eqb_spec c "internal") as [->|_]; [apply sorted_perm|reflexivity]. Qed.

Lemma filter_perm {A} (p : A -> bool) l l' : Permutation l l' -> Permutation (filter p l) (filter p l').
Proof.
  induction 1 as [|x l l' H IH|x y l|l l' l'' H1 IH1 H2 IH2]; cbn; [constructor| | |eauto using Permutation_trans].
  - destruct (p x); auto.
  - destruct (p x), (p y); auto; apply perm_swap.
Qed.

Lemma classes_split (ls : list layer) cs : NoDup cs ->
  Permutation (flat_map (fun c => of_class c ls) cs) (filter (fun x => existsb (String.eqb (l_class x)) cs) ls).
Proof.
  induction 1 as [|c cs Hc Hn IH]; cbn [flat_map existsb].
  - induction ls; cbn; auto.
  - rewrite IH. clear IH Hn. unfold of_class. induction ls as [|x ls IH]; [constructor|]. cbn [filter].
    destruct (String.eqb_spec (l_class x) c) as [E|E]; cbn [orb].
    + assert (F : existsb (String.eqb (l_class x)) cs = false).
      { rewrite E. apply Bool.not_true_is_false. intros K. apply existsb_exists in K. destruct K as (d & Hd & K). apply String.eqb_eq in K. now subst. }
      rewrite F. cbn. now constructor.
    + destruct (existsb (String.eqb (l_class x)) cs); [|exact IH]. rewrite <- Permutation_middle. now constructor.
Qed.

Lemma flat_map_perm {A B} (f g : A -> list B) l : (forall x, Permutation (f x) (g x)) -> Permutation (flat_map f l) (flat_map g l).
Proof. intros H. induction l; cbn; [constructor|]. now apply Permutation_app. Qed.

Lemma nodup_classes : NoDup all_classes.
Proof. unfold all_classes, layer_order, append_after. cbn. repeat (constructor; [cbn; intuition discriminate|]). constructor. Qed.

Lemma known_in x : known x = existsb (String.eqb (l_class x)) all_classes.
Proof.
  unfold known, place, all_classes, layer_order, append_after. cbn [app existsb].
  repeat match goal with |- context [String.eqb (l_class x) ?s] => destruct (String.eqb (l_class x) s); [reflexivity|] end. reflexivity.
Qed.

Lemma sort_perm ls : Permutation (sort_layers ls true) (filter known ls).
Proof.
  rewrite sort_true. rewrite (flat_map_perm _ (fun c => of_class c ls)) by apply piece_perm.
  rewrite classes_split by exact nodup_classes. rewrite (filter_ext known _ known_in). reflexivity.
Qed.

Lemma ss_app {A} (R : A -> A -> Prop) l1 l2 : StronglySorted R l1 -> StronglySorted R l2 ->
  (forall x y, In x l1 -> In y l2 -> R x y) -> StronglySorted R (l1 ++ l2).
Proof.
  induction 1 as [|x l H IH Hx]; intros H2 H12; [exact H2|]. cbn. constructor.
  - apply IH; auto. intros a b Ha Hb. apply H12; auto. now right.
  - apply Forall_app. split; [exact Hx|]. apply Forall_forall. intros y Hy. apply H12; auto. now left.
Qed.

Lemma ss_impl {A} (R S : A -> A -> Prop) l : (forall x y, In x l -> In y l -> R x y -> S x y) -> StronglySorted R l -> StronglySorted S l.
Proof.
  intros H K. induction K as [|x l K IH Hx]; [constructor|]. constructor.
  - apply IH. intros a b Ha Hb. apply H; now right.
  - apply Forall_forall. intros y Hy. apply H; [now left|now right|]. rewrite Forall_forall in Hx. now apply Hx.
Qed.

Lemma ss_const {A} (R : A -> A -> Prop) l : (forall x y, In x l -> In y l -> R x y) -> StronglySorted R l.
Proof.
  intros H. induction l as [|x l IH]; [constructor|]. constructor.
  - apply IH. intros a b Ha Hb. apply H; now right.
  - apply Forall_forall. intros y Hy. apply H; [now left|now right].
Qed.

Lemma piece_sorted ls c n : place c = Some n -> StronglySorted above (piece ls c).
Proof.
  intros Hn. unfold piece. destruct (String.eqb_spec c "internal") as [->|N].
  - eapply ss_impl; [|apply sorted_sorted]. intros x y Hx Hy Hxy.
    apply (Permutation_in _ (sorted_perm _)), in_of_class in Hx. apply (Permutation_in _ (sorted_perm _)), in_of_class in Hy.
    exists n, n. destruct Hx as [_ ->], Hy as [_ ->]. repeat split; auto.
  - apply ss_const. intros x y Hx Hy. apply in_of_class in Hx, Hy. exists n, n. destruct Hx as [_ ->], Hy as [_ ->].
    split; [exact Hn|]. split; [exact Hn|]. right. split; [reflexivity|]. intros ->. now elim N.
Qed.

Definition class_lt (c d : string) : Prop := exists n m, place c = Some n /\ place d = Some m /\ (n < m)%nat.

Lemma flat_sorted ls cs : StronglySorted class_lt cs -> Forall (fun c => place c <> None) cs -> StronglySorted above (flat_map (piece ls) cs).
Proof.
  induction 1 as [|c cs H IH Hc]; intros F; [constructor|]. inversion F as [|? ? F1 F2]; subst. cbn. apply ss_app; auto.
  - destruct (place c) as [n|] eqn:E; [|easy]. eapply piece_sorted; eauto.
  - intros x y Hx Hy. apply in_piece in Hx. apply in_flat_map in Hy. destruct Hy as (d & Hd & Hy). apply in_piece in Hy.
    rewrite Forall_forall in Hc. destruct (Hc d Hd) as (n & m & E1 & E2 & L). destruct Hx as [_ Hx], Hy as [_ Hy].
    exists n, m. rewrite Hx, Hy. auto.
Qed.

Lemma classes_sorted : StronglySorted class_lt all_classes.
Proof.
  unfold all_classes, layer_order, append_after. cbn [app].
  repeat (constructor; [|repeat (constructor; [do 2 eexists; split; [reflexivity|split; [reflexivity|lia]]|]); constructor]). constructor.
Qed.

Lemma sort_sorted ls : StronglySorted above (sort_layers ls true).
Proof.
  rewrite sort_true. apply flat_sorted; [apply classes_sorted|].
  unfold all_classes, layer_order, append_after. cbn [app]. repeat constructor; cbn; discriminate.
Qed.

Lemma filter_flat_map {A B} (p : B -> bool) (f : A -> list B) l : filter p (flat_map f l) = flat_map (fun x => filter p (f x)) l.
Proof. induction l; cbn; [reflexivity|]. now rewrite filter_app, IHl. Qed.

Lemma filter_none {A} (p : A -> bool) l : (forall x, In x l -> p x = false) -> filter p l = [].
Proof. intros H. induction l as [|x l IH]; [reflexivity|]. cbn. rewrite (H x (or_introl eq_refl)). apply IH. intros; apply H; now right. Qed.

Lemma tied_other z c ls : c <> l_class z -> filter (tied z) (piece ls c) = [].
Proof.
  intros N. apply filter_none. intros x Hx. apply in_piece in Hx. unfold tied. destruct Hx as [_ ->].
  destruct (String.eqb_spec (l_class z) c); [congruence|reflexivity].
Qed.

Lemma filter_filter {A} (p q : A -> bool) l : filter p (filter q l) = filter (fun x => q x && p x) l.
Proof. induction l as [|x l IH]; [reflexivity|]. cbn. destruct (q x) eqn:E; cbn; [|exact IH]. destruct (p x); now rewrite IH. Qed.

Lemma tied_same z ls : filter (tied z) (piece ls (l_class z)) = filter (tied z) ls.
Proof.
  unfold piece. destruct (String.eqb_spec (l_class z) "internal") as [E|N].
  - rewrite <- (filter_ext_in (fun y => l_order y =? l_order z)%Z).
    + rewrite sorted_filter. unfold of_class. rewrite filter_filter. apply filter_ext. intros x. unfold tied. rewrite E. cbn.
      rewrite String.eqb_sym. now rewrite Z.eqb_sym.
    + intros x Hx. apply (Permutation_in _ (sorted_perm _)), in_of_class in Hx. destruct Hx as [_ Hx]. unfold tied. rewrite E, Hx. cbn. apply Z.eqb_sym.
  - unfold of_class. rewrite filter_filter. apply filter_ext. intros x. unfold tied.
    rewrite (String.eqb_sym (l_class x)). destruct (String.eqb (l_class z) (l_class x)) eqn:E; reflexivity.
Qed.

Lemma tied_flat z ls cs : NoDup cs -> In (l_class z) cs -> filter (tied z) (flat_map (piece ls) cs) = filter (tied z) ls.
Proof.
  rewrite filter_flat_map. induction 1 as [|c cs Hc H IH]; [intros []|]. cbn [flat_map In].
  destruct (String.eqb_spec c (l_class z)) as [->|N].
  - intros _. rewrite tied_same.
    assert (E : flat_map (fun x => filter (tied z) (piece ls x)) cs = []).
    { clear - Hc. induction cs as [|d cs IH]; [reflexivity|]. cbn. rewrite tied_other; [apply IH; intro; apply Hc; now right|].
      intros ->. apply Hc. now left. }
    rewrite E. apply app_nil_r.
  - intros [K|K]; [congruence|]. rewrite tied_other by congruence. now apply IH.
Qed.

Lemma C46_lemma : forall ls,
  Permutation (sort_layers ls true) (filter known ls) /\
  StronglySorted above (sort_layers ls true) /\
  (forall z, known z = true -> filter (tied z) (sort_layers ls true) = filter (tied z) ls) /\
  (exists stack behind, sort_layers ls true = stack ++ behind /\ sort_layers ls false = rev stack ++ behind /\
     Forall (fun x => stacked x = true) stack /\ Forall (fun x => stacked x = false) behind).
Proof.
  intros ls. split; [apply sort_perm|]. split; [apply sort_sorted|]. split.
  - intros z Hz. rewrite sort_true. apply tied_flat; [apply nodup_classes|]. rewrite known_in in Hz.
    apply existsb_exists in Hz. destruct Hz as (c & Hc & E). apply String.eqb_eq in E. now subst.
  - exists (flat_map (piece ls) layer_order), (flat_map (piece ls) append_after). repeat split.
    + apply Forall_forall. intros x Hx. apply in_flat_map in Hx. destruct Hx as (c & Hc & Hx). apply in_piece in Hx. destruct Hx as [_ Hx].
      unfold stacked. rewrite Hx. clear - Hc. repeat (destruct Hc as [<-|Hc]; [reflexivity|]). destruct Hc.
    + apply Forall_forall. intros x Hx. apply in_flat_map in Hx. destruct Hx as (c & Hc & Hx). apply in_piece in Hx. destruct Hx as [_ Hx].
      unfold stacked. rewrite Hx. clear - Hc. repeat (destruct Hc as [<-|Hc]; [reflexivity|]). destruct Hc.
Qed.

(** ** Boards *)

Lemma in_pcb x ls : In x (pcb ls) <-> In x ls /\ known x = true.
Proof. unfold pcb. rewrite <- filter_In. split; apply Permutation_in; [|apply Permutation_sym]; apply sort_perm. Qed.

Lemma on_side_true s x : on_side s x = true <-> In s (l_sides x).
Proof.
  unfold on_side. rewrite existsb_exists. split.
  - intros (y & Hy & E). apply String.eqb_eq in E. now subst.
  - intros H. exists s. split; [exact H|apply String.eqb_refl].
Qed.

Definition side_classes (s : side) : list string :=
  match s with TopSide => ["topsilk"; "topmask"; "top"] | BottomSide => ["bottomsilk"; "bottommask"; "bottom"] end%string.

Lemma side_class s x : class_in (side_classes s) x = true <-> copper_mask_silk s (l_class x).
Proof.
  unfold class_in. rewrite existsb_exists. split.
  - intros (c & Hc & E). apply String.eqb_eq in E. rewrite E. destruct s; cbn in *; intuition.
  - intros H. exists (l_class x). rewrite String.eqb_refl. split; [|reflexivity]. destruct s; cbn in *; intuition.
Qed.

Lemma interleave_perm b d l : interleave b d = Ok l -> Permutation l (b ++ d).
Proof.
  unfold interleave. destruct b as [|x b]; [discriminate|]. intros H. injection H as <-. cbn. constructor. apply Permutation_app_comm.
Qed.

Lemma side_ok s ls : (exists x, In x ls /\ copper_mask_silk s (l_class x)) ->
  exists l, side_layers s (pcb ls) = Ok l /\
    Permutation l (filter (class_in (side_classes s)) (pcb ls) ++ filter (on_side (side_name s)) (drill_layers (pcb ls))).
Proof.
  intros (x & Hx & Hc).
  assert (K : known x = true).
  { unfold known. destruct s; cbn in Hc; destruct Hc as [->|[->| ->]]; reflexivity. }
  assert (Hin : In x (filter (class_in (side_classes s)) (pcb ls))).
  { apply filter_In. split; [now apply in_pcb|]. now apply side_class. }
  destruct s; cbn [side_layers side_classes side_name] in *.
  - unfold top_layers. destruct (interleave _ _) eqn:E.
    + eexists. split; [reflexivity|]. apply interleave_perm in E. rewrite E. apply Permutation_app_tail. apply filter_perm, Permutation_sym, Permutation_rev.
    + unfold interleave in E. destruct (filter _ (rev _)) eqn:F; [|discriminate].
      exfalso. assert (G : In x []) by (rewrite <- F; apply filter_In in Hin; apply filter_In; rewrite <- in_rev; exact Hin). destruct G.
  - unfold bottom_layers. destruct (interleave _ _) eqn:E.
    + eexists. split; [reflexivity|]. now apply interleave_perm in E.
    + unfold interleave in E. destruct (filter _ (pcb ls)); [destruct Hin|discriminate].
Qed.

Lemma class_filter_pcb (p : layer -> bool) ls : (forall x, p x = true -> known x = true) -> Permutation (filter p (pcb ls)) (filter p ls).
Proof.
  intros H. unfold pcb. rewrite (filter_perm p _ _ (sort_perm ls)). rewrite filter_filter.
  rewrite (filter_ext _ p); [reflexivity|]. intros x. specialize (H x). destruct (p x); [now rewrite H|apply Bool.andb_false_r].
Qed.

Lemma ss_filter {A} (R : A -> A -> Prop) p l : StronglySorted R l -> StronglySorted R (filter p l).
Proof.
  induction 1 as [|x l H IH Hx]; [constructor|]. cbn. destruct (p x); [|exact IH]. constructor; [exact IH|].
  apply Forall_forall. intros y Hy. apply filter_In in Hy. rewrite Forall_forall in Hx. now apply Hx.
Qed.

Lemma ss_rev {A} (R : A -> A -> Prop) l : StronglySorted R l -> StronglySorted (fun x y => R y x) (rev l).
Proof.
  induction 1 as [|x l H IH Hx]; [constructor|]. cbn. apply ss_app; [exact IH|repeat constructor|].
  intros a b Ha [<-|[]]. rewrite <- in_rev in Ha. rewrite Forall_forall in Hx. now apply Hx.
Qed.

Lemma side_shape s ls l : side_layers s (pcb ls) = Ok l ->
  exists x r d, l = x :: d ++ r /\ Forall (drills_to s) d /\ StronglySorted (outwards s) (x :: r) /\
                Forall (fun y => copper_mask_silk s (l_class y)) (x :: r).
Proof.
  pose proof (sort_sorted ls) as HS. fold (pcb ls) in HS. intros H.
  assert (D : forall s, Forall (drills_to s) (filter (on_side (side_name s)) (drill_layers (pcb ls)))).
  { intros s'. apply Forall_forall. intros y Hy. apply filter_In in Hy. destruct Hy as [H1 H2]. apply in_of_class in H1. apply on_side_true in H2. split; tauto. }
  destruct s; cbn [side_layers] in H; [unfold top_layers in H|unfold bottom_layers in H]; unfold interleave in H.
  - assert (S1 : StronglySorted (fun x y => above y x) (filter (class_in ["topsilk"; "topmask"; "top"]%string) (rev (pcb ls)))) by (apply ss_filter, ss_rev, HS).
    assert (F1 : Forall (fun y => copper_mask_silk TopSide (l_class y)) (filter (class_in ["topsilk"; "topmask"; "top"]%string) (rev (pcb ls)))).
    { apply Forall_forall. intros y Hy. apply filter_In in Hy. apply (side_class TopSide). tauto. }
    destruct (filter _ (rev _)) as [|x r]; [discriminate|]. apply ok_inj in H. subst l. exists x, r, (filter (on_side "top"%string) (drill_layers (pcb ls))). split; [reflexivity|]. split; [apply (D TopSide)|]. now split.
  - assert (S1 : StronglySorted above (filter (class_in ["bottomsilk"; "bottommask"; "bottom"]%string) (pcb ls))) by (apply ss_filter, HS).
    assert (F1 : Forall (fun y => copper_mask_silk BottomSide (l_class y)) (filter (class_in ["bottomsilk"; "bottommask"; "bottom"]%string) (pcb ls))).
    { apply Forall_forall. intros y Hy. apply filter_In in Hy. apply (side_class BottomSide). tauto. }
    destruct (filter (class_in _) _) as [|x r]; [discriminate|]. apply ok_inj in H. subst l. exists x, r, (filter (on_side "bottom"%string) (drill_layers (pcb ls))). split; [reflexivity|]. split; [apply (D BottomSide)|]. now split.
Qed.

Lemma C47_lemma : forall ls s, (exists x, In x ls /\ copper_mask_silk s (l_class x)) ->
  exists l, side_layers s (pcb ls) = Ok l /\
    (forall p, (forall x, p x = true <-> copper_mask_silk s (l_class x) \/ drills_to s x) -> Permutation l (filter p ls)) /\
    (exists x r d, l = x :: d ++ r /\ Forall (drills_to s) d /\ StronglySorted (outwards s) (x :: r) /\
                Forall (fun y => copper_mask_silk s (l_class y)) (x :: r)).
Proof.
  intros ls s H. destruct (side_ok s ls H) as (l & E & P). exists l. split; [exact E|]. split; [|now apply side_shape in E].
  intros p Hp. rewrite P.
  rewrite (class_filter_pcb (class_in (side_classes s))).
  2:{ intros x Hx. apply side_class in Hx. unfold known. destruct s; cbn in Hx; destruct Hx as [->|[->| ->]]; reflexivity. }
  assert (Q : Permutation (filter (on_side (side_name s)) (drill_layers (pcb ls))) (filter (fun x => String.eqb (l_class x) "drill" && on_side (side_name s) x) ls)).
  { unfold drill_layers, of_class. rewrite filter_filter. apply class_filter_pcb. intros x Hx. apply Bool.andb_true_iff in Hx. destruct Hx as [Hx _]. apply String.eqb_eq in Hx. unfold known. now rewrite Hx. }
  rewrite Q. clear P Q E H l.
  induction ls as [|x ls IH]; [constructor|]. cbn [filter].
  destruct (class_in (side_classes s) x) eqn:E1.
  - assert (E2 : (String.eqb (l_class x) "drill" && on_side (side_name s) x)%bool = false).
    { apply side_class in E1. destruct s; cbn in E1; destruct E1 as [->|[->| ->]]; reflexivity. }
    rewrite E2. assert (E3 : p x = true) by (apply Hp; left; now apply side_class). rewrite E3. cbn. now constructor.
  - destruct (String.eqb (l_class x) "drill" && on_side (side_name s) x)%bool eqn:E2.
    + assert (E3 : p x = true). { apply Hp. right. apply Bool.andb_true_iff in E2. destruct E2 as [A B]. split; [now apply String.eqb_eq|now apply on_side_true]. }
      rewrite E3. rewrite <- Permutation_middle. now constructor.
    + assert (E3 : p x = false).
      { apply Bool.not_true_is_false. intros K. apply Hp in K. destruct K as [K|[K1 K2]].
        - apply side_class in K. congruence.
        - rewrite K1 in E2. cbn in E2. apply on_side_true in K2. congruence. }
      now rewrite E3.
Qed.

Definition sides_claim : Prop := forall ls s,
  exists l, side_layers s (pcb ls) = Ok l /\
    (forall x, In x l -> of_side s (l_class x) \/ drills_to s x) /\
    (forall x, In x ls -> of_side s (l_class x) -> In x l).

Lemma C47_refuted_lemma :
  (exists ls s, side_layers s (pcb ls) = Err IndexError) /\
  (exists ls s l x, side_layers s (pcb ls) = Ok l /\ In x ls /\ of_side s (l_class x) /\ ~ In x l).
Proof.
  split.
  - exists [mkLayer 0 "bottom" 0 []; mkLayer 1 "drill" 0 ["top"; "bottom"]]%string, TopSide. vm_compute. reflexivity.
  - exists [mkLayer 0 "top" 0 []; mkLayer 1 "toppaste" 0 []]%string, TopSide. do 2 eexists. split; [vm_compute; reflexivity|].
    split; [right; left; reflexivity|]. split; [right; reflexivity|]. cbn. intros [K|[]]. discriminate.
Qed.

Lemma C47_not_claim : ~ sides_claim.
Proof. intros H. destruct C47_refuted_lemma as [(ls & s & E) _]. destruct (H ls s) as (l & K & _). congruence. Qed.

(** ** Copper layers, outline and bounds *)

Lemma copper_in x : class_in ["top"; "bottom"; "internal"]%string x = true <-> copper x.
Proof.
  unfold class_in, copper. rewrite existsb_exists. split.
  - intros (c & Hc & E). apply String.eqb_eq in E. rewrite E. cbn in Hc. intuition.
  - intros H. exists (l_class x). rewrite String.eqb_refl. split; [|reflexivity]. cbn. intuition.
Qed.

Lemma find_some_iff {A} (p : A -> bool) l x : find p l = Some x -> In x l /\ p x = true.
Proof. intros H. split; [eapply find_some, H|eapply find_some, H]. Qed.

Lemma C69_lemma : forall ls,
  (forall p, (forall x, p x = true <-> copper x) ->
     Permutation (copper_layers (pcb ls)) (filter p ls) /\ layer_count (pcb ls) = List.length (filter p ls)) /\
  StronglySorted (fun x y => above y x) (copper_layers (pcb ls)) /\
  (forall x, bounds_layer (pcb ls) = Some x -> In x ls /\
     (l_class x = "outline"%string \/ l_class x = "top"%string /\ forall y, In y ls -> l_class y <> "outline"%string)) /\
  (bounds_layer (pcb ls) = None <-> forall y, In y ls -> l_class y <> "outline"%string /\ l_class y <> "top"%string).
Proof.
  intros ls. split; [|split; [|split]].
  - intros p Hp.
    assert (E : Permutation (filter (class_in ["top"; "bottom"; "internal"]%string) (pcb ls)) (filter p ls)).
    { rewrite class_filter_pcb.
      - rewrite (filter_ext _ p); [reflexivity|]. intros x. specialize (Hp x). rewrite <- copper_in in Hp. destruct (p x), (class_in _ x); try reflexivity; intuition congruence.
      - intros x Hx. apply copper_in in Hx. unfold known. destruct Hx as [->|[->| ->]]; reflexivity. }
    unfold copper_layers, layer_count. split; [|now apply Permutation_length]. rewrite <- Permutation_rev. exact E.
  - apply ss_rev, ss_filter, sort_sorted.
  - intros x. unfold bounds_layer, outline_layer. destruct (find _ (pcb ls)) as [y|] eqn:E.
    + intros K. injection K as ->. apply find_some in E. destruct E as [E1 E2]. apply in_pcb in E1. apply String.eqb_eq in E2. tauto.
    + intros K. apply find_some in K. destruct K as [K1 K2]. apply in_pcb in K1. apply String.eqb_eq in K2. split; [tauto|]. right. split; [exact K2|].
      intros z Hz C. assert (G : In z (pcb ls)) by (apply in_pcb; split; [exact Hz|]; unfold known; now rewrite C).
      apply (find_none _ _ E) in G. rewrite C in G. discriminate.
  - unfold bounds_layer, outline_layer. split.
    + destruct (find _ (pcb ls)) as [y|] eqn:E; [discriminate|]. intros K y Hy. split; intros C.
      * assert (G : In y (pcb ls)) by (apply in_pcb; split; [exact Hy|]; unfold known; now rewrite C).
        apply (find_none _ _ E) in G. rewrite C in G. discriminate.
      * assert (G : In y (pcb ls)) by (apply in_pcb; split; [exact Hy|]; unfold known; now rewrite C).
        apply (find_none _ _ K) in G. rewrite C in G. discriminate.
    + intros H. destruct (find _ (pcb ls)) as [y|] eqn:E.
      * apply find_some in E. destruct E as [E1 E2]. apply in_pcb in E1. apply String.eqb_eq in E2. now elim (proj1 (H y (proj1 E1))).
      * destruct (find (fun x => String.eqb (l_class x) "top") (pcb ls)) as [y|] eqn:E'; [|reflexivity].
        apply find_some in E'. destruct E' as [E1 E2]. apply in_pcb in E1. apply String.eqb_eq in E2. now elim (proj2 (H y (proj1 E1))).
Qed.

(** ** Names *)

Lemma lower_chr_idem c : lower_chr (lower_chr c) = lower_chr c.
Proof. revert c. assert (H : forallb (fun n => ceq (lower_chr (lower_chr (ascii_of_nat n))) (lower_chr (ascii_of_nat n))) (seq 0 256) = true) by (vm_compute; reflexivity).
  rewrite forallb_forall in H. intros c. rewrite <- (ascii_nat_embedding c). apply ceq_true, H. apply in_seq. pose proof (nat_ascii_bounded c). lia.
Qed.

Lemma char_all (p : ascii -> bool) : forallb (fun n => p (ascii_of_nat n)) (seq 0 256) = true -> forall c, p c = true.
Proof.
  rewrite forallb_forall. intros H c. rewrite <- (ascii_nat_embedding c). apply H, in_seq. pose proof (nat_ascii_bounded c). lia.
Qed.

Lemma lower_chr_fix d : (forall c, ceq (lower_chr c) d = ceq c d) -> forall c, lower_chr c = d <-> c = d.
Proof. intros H c. rewrite <- !ceq_true. now rewrite H. Qed.

Lemma lower_slash c : ceq (lower_chr c) "/"%char = ceq c "/"%char.
Proof. apply Bool.eqb_prop. revert c. apply char_all. vm_compute. reflexivity. Qed.
Lemma lower_dot c : ceq (lower_chr c) "."%char = ceq c "."%char.
Proof. apply Bool.eqb_prop. revert c. apply char_all. vm_compute. reflexivity. Qed.
Lemma lower_dash c : ceq (lower_chr c) "-"%char = ceq c "-"%char.
Proof. apply Bool.eqb_prop. revert c. apply char_all. vm_compute. reflexivity. Qed.
Lemma lower_nl c : ceq (lower_chr c) nl = ceq c nl.
Proof. apply Bool.eqb_prop. revert c. apply char_all. vm_compute. reflexivity. Qed.
Lemma lower_word c : is_word (lower_chr c) = is_word c.
Proof. apply Bool.eqb_prop. revert c. apply char_all. vm_compute. reflexivity. Qed.
Lemma lower_sep c : is_sep (lower_chr c) = is_sep c.
Proof. unfold is_sep. now rewrite lower_dot, lower_dash. Qed.

Lemma basename_noslash s : ~ In "/"%char s -> basename s = s.
Proof.
  destruct s as [|c s]; [reflexivity|]. intros H. cbn [basename].
  assert (E : char_in "/"%char s = false) by (apply char_in_false; intro; apply H; now right). rewrite E.
  destruct (ceq c "/"%char) eqn:F; [|reflexivity]. apply ceq_true in F. exfalso. apply H. now left.
Qed.

Lemma basename_dir d s : directory d -> ~ In "/"%char s -> basename (d ++ s) = s.
Proof.
  intros [->|[d' ->]] H; [now apply basename_noslash|]. induction d' as [|c d' IH].
  - change (basename ("/"%char :: s) = s). cbn [basename]. assert (E : char_in "/"%char s = false) by (now apply char_in_false). rewrite E. reflexivity.
  - cbn [app basename]. assert (E : char_in "/"%char ((d' ++ T "/") ++ s) = true).
    { apply char_in_true. apply in_or_app. left. apply in_or_app. right. now left. }
    rewrite E. exact IH.
Qed.

Lemma is_sep_true c : is_sep c = true <-> separator c.
Proof. unfold is_sep, separator. now rewrite Bool.orb_true_iff, !ceq_true. Qed.

Lemma behind_seps_spec s : forall t, In t (behind_seps s) <->
  exists a c, s = a ++ c :: t /\ separator c /\ Forall (fun c => is_word c = true \/ separator c) a.
Proof.
  induction s as [|x s IH]; intros t; cbn [behind_seps].
  - split; [intros []|]. intros (a & c & H & _). destruct a; discriminate.
  - destruct (is_sep x) eqn:E.
    + cbn [In]. rewrite IH. split.
      * intros [<-|(a & c & -> & Hc & Ha)].
        -- exists [], x. repeat split; [now apply is_sep_true|constructor].
        -- exists (x :: a), c. repeat split; auto. constructor; [right; now apply is_sep_true|exact Ha].
      * intros (a & c & H & Hc & Ha). destruct a as [|y a]; injection H as -> H; [now left|]. right. exists a, c. inversion Ha; subst. auto.
    + destruct (is_word x) eqn:W.
      * rewrite IH. split.
        -- intros (a & c & -> & Hc & Ha). exists (x :: a), c. repeat split; auto.
        -- intros (a & c & H & Hc & Ha). destruct a as [|y a]; injection H as -> H; [apply is_sep_true in Hc; congruence|]. exists a, c. inversion Ha; subst. auto.
      * split; [intros []|]. intros (a & c & H & Hc & Ha). destruct a as [|y a]; injection H as -> H; [apply is_sep_true in Hc; congruence|].
        inversion Ha as [|? ? [K|K] _]; subst; [congruence|apply is_sep_true in K; congruence].
Qed.

(** The specification with the functions of the model *)
Definition reads_like0 (w x : text) : Prop := Forall2 (fun p c => p = "."%char \/ lower_chr p = lower_chr c) w x.
Definition has_token0 (w s : text) : Prop :=
  exists a x b, s = a ++ x ++ b /\ reads_like0 w x /\
    (a = [] \/ exists a' c, a = a' ++ [c] /\ separator c /\ Forall (fun c => is_word c = true \/ separator c) a') /\
    (b = [] \/ exists c b', b = c :: b' /\ separator c /\ Forall (fun c => is_word c = true) b').
Definition pair_in (x : ascii * ascii) (l : list (ascii * ascii)) : bool := existsb (fun y => ceq (fst x) (fst y) && ceq (snd x) (snd y)) l.
Lemma pair_in_spec x l : pair_in x l = true <-> In x l.
Proof.
  unfold pair_in. rewrite existsb_exists. split.
  - intros ([a b] & I & E). destruct x as [c d]. cbn in E. apply andb_prop in E as [E1 E2]. apply ceq_true in E1, E2. now subst.
  - intros I. exists x. split; [exact I|]. now rewrite !(proj2 (ceq_true _ _) eq_refl).
Qed.
Lemma letter_lower c d : same_letter c d <-> lower_chr c = lower_chr d.
Proof.
  unfold same_letter. rewrite <- !pair_in_spec, <- !ceq_true, <- !Bool.orb_true_iff.
  assert (H : forall c, forallb (fun n => Bool.eqb (ceq c (ascii_of_nat n) || (pair_in (c, ascii_of_nat n) (combine capitals small) || pair_in (ascii_of_nat n, c) (combine capitals small)))
    (ceq (lower_chr c) (lower_chr (ascii_of_nat n)))) (seq 0 256) = true) by (apply char_all; vm_compute; reflexivity).
  pose proof (char_all (fun d => Bool.eqb (ceq c d || (pair_in (c, d) (combine capitals small) || pair_in (d, c) (combine capitals small))) (ceq (lower_chr c) (lower_chr d))) (H c) d) as E.
  apply Bool.eqb_prop in E. now rewrite E.
Qed.
Lemma word_true c : is_word c = true <-> word_char c.
Proof.
  unfold word_char. rewrite <- char_in_true. pose proof (char_all (fun c => Bool.eqb (is_word c) (char_in c (capitals ++ small ++ T "0123456789_")))) as H. cbv beta in H.
  assert (E : Bool.eqb (is_word c) (char_in c (capitals ++ small ++ T "0123456789_")) = true) by (apply H; vm_compute; reflexivity). apply Bool.eqb_prop in E. now rewrite E.
Qed.
Lemma lower_case s t : same_but_case s t <-> lower s = lower t.
Proof.
  unfold same_but_case, lower. revert t. induction s as [|c s IH]; intros [|d t]; cbn; try (split; [intros H; inversion H|discriminate]).
  - split; [reflexivity|constructor].
  - split.
    + intros H. inversion H; subst. f_equal; [now apply letter_lower|now apply IH].
    + intros [= E1 E2]. constructor; [now apply letter_lower|now apply IH].
Qed.
Lemma Forall2_iff {A B} (P Q : A -> B -> Prop) l m : (forall x y, P x y <-> Q x y) -> Forall2 P l m <-> Forall2 Q l m.
Proof. intros H. split; induction 1; constructor; auto; now apply H. Qed.
Lemma Forall_same {A} (P Q : A -> Prop) l : (forall x, P x <-> Q x) -> Forall P l <-> Forall Q l.
Proof. intros H. split; apply Forall_impl; intros x; now apply H. Qed.
Lemma reads_like_same w x : reads_like w x <-> reads_like0 w x.
Proof. apply Forall2_iff. intros c d. now rewrite letter_lower. Qed.
Lemma has_token_same w s : has_token w s <-> has_token0 w s.
Proof.
  unfold has_token, has_token0. split; intros (a & x & b & E & R & A & B); exists a, x, b; (split; [exact E|]); (split; [now apply reads_like_same|]).
  - split; [destruct A as [A|(a' & c & A & S & F)]; [now left|right; exists a', c; repeat (split; [assumption|])]|destruct B as [B|(c & b' & B & S & F)]; [now left|right; exists c, b'; repeat (split; [assumption|])]].
    + eapply Forall_impl; [|exact F]. cbn. intros z. now rewrite word_true.
    + eapply Forall_impl; [|exact F]. cbn. intros z. now rewrite word_true.
  - split; [destruct A as [A|(a' & c & A & S & F)]; [now left|right; exists a', c; repeat (split; [assumption|])]|destruct B as [B|(c & b' & B & S & F)]; [now left|right; exists c, b'; repeat (split; [assumption|])]].
    + eapply Forall_impl; [|exact F]. cbn. intros z. now rewrite word_true.
    + eapply Forall_impl; [|exact F]. cbn. intros z. now rewrite word_true.
Qed.

Lemma behind_name_spec p : forall s u, ~ In nl s -> behind_name p s = Some u <-> exists x, s = x ++ u /\ reads_like0 p x.
Proof.
  unfold reads_like0. induction p as [|c p IH]; intros s u Hn; cbn [behind_name].
  - split.
    + intros H. injection H as <-. exists []. split; auto.
    + intros (x & -> & H). inversion H; subst. reflexivity.
  - destruct s as [|y s].
    + split; [discriminate|]. intros (x & H & F). inversion F; subst. discriminate.
    + assert (Hy : ceq y nl = false) by (apply ceq_false; intros ->; apply Hn; now left).
      assert (Hs : ~ In nl s) by (intro; apply Hn; now right).
      assert (B : (if ceq c "."%char then negb (ceq y nl) else ceq (lower_chr c) (lower_chr y)) = true <-> c = "."%char \/ lower_chr c = lower_chr y).
      { destruct (ceq_spec c "."%char) as [->|N]; [rewrite Hy; split; auto|]. rewrite ceq_true. intuition. }
      destruct (if ceq c "."%char then _ else _).
      * rewrite (IH s u Hs). split.
        -- intros (x & -> & F). exists (y :: x). split; [reflexivity|]. constructor; [now apply B|exact F].
        -- intros (x & H & F). inversion F as [|? z ? x' H1 H2]; subst. injection H as -> ->. eauto.
      * split; [discriminate|]. intros (x & H & F). inversion F as [|? z ? x' H1 H2]; subst. injection H as -> _. exfalso. apply B in H1. discriminate.
Qed.

Lemma at_end_nonl s : ~ In nl s -> at_end s = true <-> s = [].
Proof.
  intros H. destruct s as [|c [|]]; cbn; [tauto| |split; discriminate].
  split; [|discriminate]. intros E. apply ceq_true in E. exfalso. apply H. now left.
Qed.

Lemma word_end_spec s : ~ In nl s -> word_end s = true <-> Forall (fun c => is_word c = true) s.
Proof.
  induction s as [|c s IH]; intros H; cbn [word_end]; [split; auto; constructor|].
  rewrite Bool.orb_true_iff, at_end_nonl by exact H. rewrite Bool.andb_true_iff, IH by (intro; apply H; now right). split.
  - intros [K|[K1 K2]]; [discriminate|]. now constructor.
  - intros K. inversion K; subst. auto.
Qed.

Lemma tail_end_spec s : ~ In nl s -> tail_end s = true <-> (s = [] \/ exists c b', s = c :: b' /\ separator c /\ Forall (fun c => is_word c = true) b').
Proof.
  intros H. unfold tail_end. rewrite Bool.orb_true_iff, at_end_nonl by exact H. destruct s as [|c s]; [intuition discriminate|].
  rewrite Bool.andb_true_iff, is_sep_true, word_end_spec by (intro; apply H; now right). split.
  - intros [K|[K1 K2]]; [discriminate|]. right. eauto.
  - intros [K|(c' & b & K & K1 & K2)]; [discriminate|]. injection K as <- <-. auto.
Qed.

Lemma name_matches_spec0 p s : ~ In nl s -> name_matches p s = true <-> has_token0 p s.
Proof.
  intros Hn. unfold name_matches, has_token0. rewrite existsb_exists. split.
  - intros (t & Ht & H). destruct (behind_name p t) as [u|] eqn:E; [|discriminate].
    assert (P : exists a, s = a ++ t /\ (a = [] \/ exists a' c, a = a' ++ [c] /\ separator c /\ Forall (fun c => is_word c = true \/ separator c) a')).
    { destruct Ht as [<-|Ht]; [exists []; auto|]. apply behind_seps_spec in Ht. destruct Ht as (a & c & -> & Hc & Ha). exists (a ++ [c]).
      split; [now rewrite <- app_assoc|]. right. eauto. }
    destruct P as (a & -> & Ha). assert (Hn' : ~ In nl t) by (intro; apply Hn, in_or_app; now right).
    apply behind_name_spec in E; [|exact Hn']. destruct E as (x & -> & Hx). exists a, x, u. split; [reflexivity|]. split; [exact Hx|]. split; [exact Ha|].
    apply tail_end_spec; [intro; apply Hn', in_or_app; now right|exact H].
  - intros (a & x & b & -> & Hx & Ha & Hb). exists (x ++ b).
    assert (Hn' : ~ In nl (x ++ b)) by (intro; apply Hn, in_or_app; now right). split.
    + destruct Ha as [->|(a' & c & -> & Hc & Ha)]; [now left|]. right. apply behind_seps_spec. exists a', c. rewrite <- app_assoc. auto.
    + assert (E : behind_name p (x ++ b) = Some b) by (apply behind_name_spec; eauto). rewrite E.
      apply tail_end_spec; [intro; apply Hn', in_or_app; now right|exact Hb].
Qed.

Lemma reads_like_lower w x : reads_like0 w (lower x) <-> reads_like0 w x.
Proof.
  unfold reads_like0, lower. split.
  - revert w. induction x as [|c x IH]; intros w H; inversion H as [|? ? ? ? H1 H2]; subst; constructor; auto. now rewrite lower_chr_idem in H1.
  - induction 1 as [|p c w x H _ IH]; constructor; auto. rewrite lower_chr_idem. exact H.
Qed.

Lemma has_token_lower0 w s : has_token0 w (lower s) -> has_token0 w s.
Proof.
  intros (a & x & b & E & Hx & Ha & Hb). unfold lower in E. apply map_eq_app in E. destruct E as (a0 & r & -> & <- & E).
  apply map_eq_app in E. destruct E as (x0 & b0 & -> & <- & <-). exists a0, x0, b0. split; [reflexivity|]. split; [now apply reads_like_lower|]. split.
  - destruct Ha as [Ha|(a' & c & Ha & Hc & F)]; [left; now apply map_eq_nil in Ha|]. right.
    apply map_eq_app in Ha. destruct Ha as (a1 & y & -> & <- & E). destruct y as [|y [|]]; try discriminate. injection E as <-.
    exists a1, y. split; [reflexivity|]. split; [rewrite <- is_sep_true in *; now rewrite lower_sep in Hc|].
    rewrite Forall_map in F. eapply Forall_impl; [|exact F]. intros z. cbn. now rewrite lower_word, <- !is_sep_true, lower_sep.
  - destruct Hb as [Hb|(c & b' & Hb & Hc & F)]; [left; now apply map_eq_nil in Hb|]. right.
    destruct b0 as [|y b0]; [discriminate|]. injection Hb as <- <-. exists y, b0. split; [reflexivity|]. split; [rewrite <- is_sep_true in *; now rewrite lower_sep in Hc|].
    rewrite Forall_map in F. eapply Forall_impl; [|exact F]. intros z. cbn. now rewrite lower_word.
Qed.

Lemma name_matches_spec p s : ~ In nl s -> name_matches p s = true <-> has_token p s.
Proof. intros N. rewrite has_token_same. now apply name_matches_spec0. Qed.
Lemma has_token_lower w s : has_token w (lower s) -> has_token w s.
Proof. rewrite !has_token_same. apply has_token_lower0. Qed.

Lemma C67_case_lemma : forall d f d' f', directory d -> directory d' -> ~ In "/"%char f -> ~ In "/"%char f' ->
  same_but_case f f' -> guess_layer_class (d ++ f) = guess_layer_class (d' ++ f').
Proof. intros d f d' f' D D' F F' E. apply lower_case in E. unfold guess_layer_class. rewrite !basename_dir by assumption. now rewrite E. Qed.

Lemma last_dot_none s : ~ In "."%char s -> last_dot s = None.
Proof.
  induction s as [|c s IH]; [reflexivity|]. intros H. cbn. rewrite IH by (intro; apply H; now right).
  destruct (ceq_spec c "."%char) as [->|]; [exfalso; apply H; now left|reflexivity].
Qed.
Lemma last_dot_app a e : ~ In "."%char e -> last_dot (a ++ "."%char :: e) = Some (a, "."%char :: e).
Proof.
  intros H. induction a as [|c a IH]; cbn [app last_dot]; [|now rewrite IH]. rewrite last_dot_none by exact H. reflexivity.
Qed.

Lemma lower_notin d s : (forall c, ceq (lower_chr c) d = ceq c d) -> ~ In d s -> ~ In d (lower s).
Proof.
  intros H N K. unfold lower in K. apply in_map_iff in K. destruct K as (c & E & Hc). apply (proj1 (lower_chr_fix d H c)) in E. rewrite E in Hc. contradiction.
Qed.

Lemma splitext_stem stem ext : ~ In "."%char ext -> (exists c, In c stem /\ c <> "."%char) ->
  splitext (lower (stem ++ "."%char :: ext)) = (lower stem, "."%char :: lower ext).
Proof.
  intros He (c & Hc & Nc). unfold lower. rewrite map_app. cbn [map]. change (lower_chr "."%char) with "."%char.
  unfold splitext. rewrite last_dot_app by (apply lower_notin; [apply lower_dot|exact He]).
  assert (E : forallb (ceq "."%char) (map lower_chr stem) = false).
  { apply Bool.not_true_is_false. rewrite forallb_forall. intros K. specialize (K (lower_chr c) (in_map _ _ _ Hc)).
    apply ceq_true in K. symmetry in K. apply (proj1 (lower_chr_fix _ lower_dot c)) in K. contradiction. }
  now rewrite E.
Qed.

Lemma exts_disjoint : forall pre h post g e, hints = pre ++ h :: post -> In g pre -> In e (h_ext h) -> mem_text (T e) (h_ext g) = false.
Proof.
  assert (H : (fix go (pre l : list hint) := match l with [] => true | h :: l' =>
     forallb (fun g => forallb (fun e => negb (mem_text (T e) (h_ext g))) (h_ext h)) pre && go (pre ++ [h]) l' end) [] hints = true) by (vm_compute; reflexivity).
  revert H. generalize hints. 
  set (go := fix go (pre l : list hint) := match l with [] => true | h :: l' =>
     forallb (fun g => forallb (fun e => negb (mem_text (T e) (h_ext g))) (h_ext h)) pre && go (pre ++ [h]) l' end).
  assert (G : forall l acc, go acc l = true -> forall pre h post g e, l = pre ++ h :: post -> In g (acc ++ pre) -> In e (h_ext h) -> mem_text (T e) (h_ext g) = false).
  { induction l as [|x l IH]; intros acc H pre h post g e E Hg He; [destruct pre; discriminate|].
    cbn [go] in H. fold go in H. apply Bool.andb_true_iff in H. destruct H as [H1 H2]. destruct pre as [|y pre].
    - injection E as -> ->. rewrite app_nil_r in Hg. rewrite forallb_forall in H1. specialize (H1 g Hg). rewrite forallb_forall in H1. specialize (H1 e He).
      now apply Bool.negb_true_iff in H1.
    - injection E as -> E. eapply (IH (acc ++ [y]) H2 pre h post); eauto. rewrite <- app_assoc. exact Hg. }
  intros l H pre h post g e E Hg He. eapply (G l [] H); eauto.
Qed.

Lemma find_after {A} (p : A -> bool) pre h post : (forall g, In g pre -> p g = false) -> p h = true -> find p (pre ++ h :: post) = Some h.
Proof.
  intros H Hh. induction pre as [|g pre IH]; cbn; [now rewrite Hh|]. rewrite (H g (or_introl eq_refl)). apply IH. intros; apply H; now right.
Qed.

Lemma ext_lower h e : In h hints -> In e (h_ext h) -> lower (T e) = T e.
Proof.
  intros H E. assert (A : forallb (fun h => forallb (fun e => teq (lower (T e)) (T e)) (h_ext h)) hints = true) by (vm_compute; reflexivity).
  rewrite forallb_forall in A. specialize (A h H). cbv beta in A. rewrite forallb_forall in A. specialize (A e E). now apply teq_true in A.
Qed.
Lemma C67_lemma : forall pre h post d stem ext e,
  hints = pre ++ h :: post -> In e (h_ext h) -> directory d ->
  ~ In "/"%char stem -> ~ In "/"%char ext -> ~ In "."%char ext -> ~ In nl stem -> (exists c, In c stem /\ c <> "."%char) ->
  same_but_case ext (T e) ->
  (forall g n, In g pre -> In n (h_name g) -> ~ has_token (T n) stem) ->
  guess_layer_class (d ++ stem ++ T "." ++ ext) = h_layer h.
Proof.
  intros pre h post d stem ext e EH He Hd S1 S2 S3 S4 S5 Ee N. apply lower_case in Ee. rewrite (ext_lower h e) in Ee; [|rewrite EH; apply in_or_app; right; now left|exact He]. unfold guess_layer_class.
  rewrite basename_dir; [|exact Hd|]. 2:{ intros K. apply in_app_or in K. destruct K as [K|[K|K]]; [now apply S1|discriminate|now apply S2]. }
  change (T "." ++ ext) with ("."%char :: ext). rewrite splitext_stem by assumption. rewrite EH.
  rewrite find_after; [reflexivity| |].
  - intros g Hg. unfold hint_fits. cbn [skipn]. rewrite Ee. rewrite (exts_disjoint pre h post g e EH Hg He). cbn [orb].
    apply Bool.not_true_is_false. intros K. apply existsb_exists in K. destruct K as (n & Hn & K).
    apply name_matches_spec in K; [|apply lower_notin; [apply lower_nl|exact S4]]. apply has_token_lower in K. now apply (N g n).
  - unfold hint_fits. cbn [skipn]. rewrite Ee. apply Bool.orb_true_iff. left. unfold mem_text. apply existsb_exists. exists e. split; [exact He|apply teq_refl].
Qed.

Lemma C67_refuted_lemma : exists filename stem h, In h hints /\ In "gts"%string (h_ext h) /\
  filename = stem ++ T ".gts" /\ h_layer h = "topmask"%string /\ guess_layer_class filename = "top"%string.
Proof.
  exists (T "board-top.gts"), (T "board-top"). eexists. split; [do 5 right; left; reflexivity|]. vm_compute. repeat split. now left.
Qed.

Lemma span_digits_app d b : all_digits d = true -> (b = [] \/ exists c b', b = c :: b' /\ is_digit c = false) -> span_digits (d ++ b) = d.
Proof.
  intros Hd Hb. induction d as [|c d IH]; cbn.
  - destruct Hb as [->|(c & b' & -> & Hc)]; [reflexivity|]. cbn. now rewrite Hc.
  - cbn in Hd. apply Bool.andb_true_iff in Hd. destruct Hd as [Hc Hd]. now rewrite Hc, IH.
Qed.
Lemma first_number_of s d : first_number_is s d -> first_number s = Some d.
Proof.
  intros (a & b & -> & Nd & Hd & Ha & Hb). induction Ha as [|c a Hc _ IH]; cbn [app first_number].
  - destruct d as [|c d]; [easy|]. cbn [app first_number]. cbn in Hd. apply Bool.andb_true_iff in Hd. destruct Hd as [Hc Hd]. rewrite Hc.
    f_equal. change (c :: d ++ b) with ((c :: d) ++ b). apply span_digits_app; [cbn; now rewrite Hc|exact Hb].
  - now rewrite Hc.
Qed.
Lemma first_number_skip a s : Forall (fun c => is_digit c = false) a -> first_number (a ++ s) = first_number s.
Proof. induction 1 as [|c a Hc _ IH]; cbn; [reflexivity|now rewrite Hc]. Qed.

Lemma guess_dir d f : directory d -> ~ In "/"%char f -> guess_layer_class (d ++ f) = guess_layer_class f.
Proof. intros D F. unfold guess_layer_class. rewrite basename_dir by assumption. now rewrite basename_noslash. Qed.

Lemma C68_lemma : forall id k d f n, directory d -> ~ In "/"%char f -> Forall (fun c => is_digit c = false) d ->
  first_number_is f n -> l_class (from_cam id k (d ++ f)) = "internal"%string -> l_order (from_cam id k (d ++ f)) = dval n.
Proof.
  intros id k d f n D F Nd Hn. unfold from_cam. rewrite first_number_skip by exact Nd. rewrite (first_number_of _ _ Hn).
  destruct (_ || _)%bool; [discriminate|]. destruct (String.eqb _ "internal") eqn:E; [reflexivity|].
  destruct k; cbn; try discriminate; intros K; rewrite K in E; discriminate.
Qed.

Lemma C68_refuted_lemma : exists d f n id, directory d /\ ~ In "/"%char f /\ first_number_is f n /\
  l_class (from_cam id CamGerber (d ++ f)) = "internal"%string /\ l_order (from_cam id CamGerber (d ++ f)) <> dval n.
Proof.
  exists (T "/home/rev2/"), (T "board.g3"), (T "3"), 0%nat. split; [right; exists (T "/home/rev2"); reflexivity|]. split; [cbn; intuition discriminate|].
  split. { exists (T "board.g"), []. repeat split; [discriminate| |now left]. repeat constructor. }
  split; [vm_compute; reflexivity|vm_compute; discriminate].
Qed.

Lemma no_drill_hint f : guess_layer_class f <> "drill"%string.
Proof.
  unfold guess_layer_class. destruct (splitext _) as [n e]. destruct (find _ hints) as [h|] eqn:E; [|discriminate].
  apply find_some in E. destruct E as [H _]. repeat (destruct H as [<-|H]; [discriminate|]). destruct H.
Qed.

Lemma C70_lemma : forall id k f,
  (l_class (from_cam id k f) = "drill"%string <-> k = CamExcellon) /\
  (k = CamIpc -> guess_layer_class f <> "internal"%string -> l_class (from_cam id k f) = "ipc_netlist"%string) /\
  (k = CamGerber -> l_class (from_cam id k f) = guess_layer_class f).
Proof.
  intros id k f. unfold from_cam. pose proof (no_drill_hint f) as N.
  destruct (String.eqb_spec (guess_layer_class f) "drill") as [E|_]; [contradiction|].
  destruct (String.eqb_spec (guess_layer_class f) "internal") as [E|E].
  - split; [|split].
    + destruct k; cbn; split; try discriminate; reflexivity.
    + intros _ K. now elim K.
    + intros ->. now rewrite E.
  - split; [|split].
    + destruct k; cbn; split; try discriminate; try reflexivity. intros K. now elim N.
    + now intros -> _.
    + now intros ->.
Qed.

Lemma C70_refuted_lemma : exists f, l_class (from_cam 0 CamIpc f) = "internal"%string.
Proof. exists (T "gnd.ipc"). vm_compute. reflexivity. Qed.
