(** Proofs about IPC-D-356 netlists. *)
From Coq Require Import Permutation Lia.
From Verif Require MacroProofs LayersProofs.
From Verif Require Import IpcSpec.
Open Scope nat_scope.
Open Scope list_scope.

(** ** Lines and continuation lines *)

Lemma no_break_is c : no_break c <-> is_break c = false.
Proof.
  pose proof (LayersProofs.char_all (fun c => Bool.eqb (existsb (Ascii.eqb c) line_breaks) (is_break c))) as H. cbv beta in H.
  assert (E : Bool.eqb (existsb (Ascii.eqb c) line_breaks) (is_break c) = true) by (apply H; vm_compute; reflexivity). apply Bool.eqb_prop in E. unfold no_break. now rewrite E.
Qed.
Lemma splitlines_cons l s : one_line l -> splitlines (l ++ nl :: s) = l :: splitlines s.
Proof.
  induction 1 as [|c l Hc Hl IH]; cbn [app splitlines].
  - change (is_break nl) with true. change (ceq nl cr) with false. destruct s; reflexivity.
  - apply no_break_is in Hc. rewrite Hc, IH. reflexivity.
Qed.
Lemma splitlines_file ls : Forall one_line ls -> splitlines (file_of ls) = ls.
Proof.
  induction 1 as [|l ls Hl _ IH]; [reflexivity|]. change (file_of (l :: ls)) with ((l ++ [nl]) ++ file_of ls). rewrite <- app_assoc. cbn [app]. rewrite splitlines_cons by exact Hl. now rewrite IH.
Qed.

Lemma lstrip_p_keep p s : (forall c r, s = c :: r -> p c = false) -> lstrip_p p s = s.
Proof. destruct s as [|c s]; [reflexivity|]. intros H. cbn. now rewrite (H c s eq_refl). Qed.
Lemma rstrip_p_keep p s : (forall r c, s = r ++ [c] -> p c = false) -> rstrip_p p s = s.
Proof.
  intros H. unfold rstrip_p. rewrite lstrip_p_keep; [apply rev_involutive|]. intros c r E. apply (H (rev r)).
  rewrite <- (rev_involutive s), E. reflexivity.
Qed.
Lemma one_line_crlf l : one_line l -> rstrip_p is_crlf l = l.
Proof.
  intros H. apply rstrip_p_keep. intros r c ->. apply Forall_app in H. destruct H as [_ H]. inversion H as [|? ? Hc _]; subst.
  unfold is_crlf. destruct (ceq_spec c cr) as [->|]; [discriminate|]. destruct (ceq_spec c nl) as [->|]; [discriminate|reflexivity].
Qed.

Lemma join_more ms : forall old rest p, old <> [] -> one_line old ->
  Forall (fun m => let '(a, b, t) := m in no_break a /\ no_break b /\ one_line t) ms ->
  Forall (fun m : ascii * ascii * text => forall t c, snd m = t ++ [c] -> is_space c = false) ms ->
  parse_lines old (map (fun m => let '(a, b, t) := m in "0"%char :: a :: b :: t) ms ++ rest) p =
  parse_lines (old ++ List.concat (map snd ms)) rest p.
Proof.
  induction ms as [|[[a b] t] ms IH]; intros old rest p N O F G.
  - cbn. now rewrite app_nil_r.
  - inversion F as [|? ? Fm F']; subst. cbn in Fm. destruct Fm as (_ & _ & Ft). inversion G as [|? ? Gt G']; subst. cbn [map app parse_lines].
    destruct old as [|c old]; [easy|]. change (ceq "0" "0") with true. cbv iota. rewrite one_line_crlf by exact O. cbn [skipn].
    rewrite rstrip_p_keep by exact Gt. rewrite IH; auto.
    + cbn [map List.concat snd]. now rewrite app_assoc.
    + discriminate.
    + apply Forall_app. now split.
Qed.

Lemma not_cont c h ls p old : old <> [] -> c <> "0"%char ->
  parse_lines old ((c :: h) :: ls) p = (do p' <- parse_line old p; parse_lines (c :: h) ls p').
Proof.
  intros N H. destruct old as [|x old]; [easy|]. cbn [parse_lines]. destruct (ceq_spec c "0"%char) as [E|_]; [contradiction|]. reflexivity.
Qed.

Lemma join_records rs : forall old p, one_line old -> Forall well_split rs -> Forall tight rs ->
  parse_lines old (flat_map split_lines rs) p = parse_lines old (map whole rs) p.
Proof.
  induction rs as [|r rs IH]; intros old p O W Ti; [reflexivity|]. inversion W as [|? ? ((c & h & Eh & Nc) & Oh & Om) W']; subst.
  inversion Ti as [|? ? Tr Ti']; subst. cbn [flat_map map]. unfold split_lines at 1. cbn [app].
  assert (Ew : exists h', whole r = c :: h') by (unfold whole; rewrite Eh; cbn; eauto). destruct Ew as [h' Ew].
  assert (Ow : one_line (whole r)).
  { unfold whole. apply Forall_app. split; [exact Oh|]. clear - Om. induction Om as [|[[a b] t] ms H _ IH]; cbn in *; [constructor|]. apply Forall_app. now split. }
  destruct old as [|x old].
  - cbn [parse_lines]. rewrite join_more; [|rewrite Eh; discriminate|exact Oh|exact Om|exact Tr]. fold (whole r). now apply IH.
  - rewrite Eh, not_cont by (auto; discriminate). rewrite Ew, not_cont by (auto; discriminate).
    destruct (parse_line (x :: old) p) as [p'|e]; [|reflexivity]. cbn [bind]. rewrite <- Eh, <- Ew.
    rewrite join_more; [|rewrite Eh; discriminate|exact Oh|exact Om|exact Tr]. fold (whole r). now apply IH.
Qed.

Lemma C55_lemma : forall rs, Forall well_split rs -> Forall tight rs ->
  parse_raw (file_of (flat_map split_lines rs)) = parse_raw (file_of (map whole rs)).
Proof.
  intros rs W Ti. unfold parse_raw. rewrite !splitlines_file.
  - rewrite join_records; auto. constructor.
  - rewrite Forall_map. eapply Forall_impl; [|exact W]. intros r (_ & Oh & Om). unfold whole. apply Forall_app. split; [exact Oh|].
    clear - Om. induction Om as [|[[a b] t] ms H _ IH]; cbn in *; [constructor|]. apply Forall_app. now split.
  - induction W as [|r rs (_ & Oh & Om) _ IH]; [constructor|]. inversion Ti; subst. cbn. constructor; [exact Oh|]. apply Forall_app. split; [|auto].
    rewrite Forall_map. eapply Forall_impl; [|exact Om]. intros [[a b] t] (A & B & C). repeat constructor; auto.
Qed.

Lemma C55_refuted_lemma : exists rs, Forall well_split rs /\
  is_ok (parse_raw (file_of (flat_map split_lines rs))) = true /\
  parse_raw (file_of (flat_map split_lines rs)) <> parse_raw (file_of (map whole rs)).
Proof.
  exists [mkSplit (T "389BOARD_EDGE     X0Y0") [("2"%char, "7"%char, T " X10Y0 "); ("2"%char, "7"%char, T "X10Y10")]].
  split.
  { constructor; [|constructor]. split; [exists "3"%char; eexists; split; [reflexivity|discriminate]|]. split; [repeat constructor|].
    repeat constructor. }
  split; [vm_compute; reflexivity|].
  intros H. apply (f_equal (rmap (fun n => map (fun s => match s with IOutline o => List.length (ol_points o) | _ => 0 end) (n_stmts n)))) in H.
  vm_compute in H. discriminate.
Qed.

(** ** Nets *)

Lemma mem_true x l : mem x l = true <-> In x l.
Proof.
  unfold mem. rewrite existsb_exists. split.
  - intros (y & Hy & E). apply teq_true in E. now subst.
  - intros H. exists x. split; [exact H|apply teq_refl].
Qed.
Lemma to_set_in x l : In x (to_set l) <-> In x l.
Proof.
  induction l as [|y l IH]; [tauto|]. cbn [to_set]. destruct (mem y l) eqn:E.
  - rewrite IH. apply mem_true in E. cbn. split; [auto|]. intros [<-|H]; auto.
  - cbn. rewrite IH. tauto.
Qed.
Lemma to_set_nodup l : NoDup (to_set l).
Proof.
  induction l as [|y l IH]; [constructor|]. cbn [to_set]. destruct (mem y l) eqn:E; [exact IH|]. constructor; [|exact IH].
  rewrite to_set_in, <- mem_true. congruence.
Qed.

Lemma in_records l r : In r (test_records l) <-> In (ITest r) l.
Proof.
  unfold test_records. rewrite in_flat_map. split.
  - intros (s & Hs & H). destruct s; cbn in H; try contradiction. destruct H as [<-|[]]. exact Hs.
  - intros H. exists (ITest r). split; [exact H|now left].
Qed.
Lemma in_adjacency l n a : In (n, a) (adjacency_records l) <-> In (IAdjacency n a) l.
Proof.
  unfold adjacency_records. rewrite in_flat_map. split.
  - intros (s & Hs & H). destruct s; cbn in H; try contradiction. destruct H as [E|[]]. injection E as <- <-. exact Hs.
  - intros H. exists (IAdjacency n a). split; [exact H|now left].
Qed.

(** What the inner loop does to a net. *)
Definition relevant (net : text) (r : text * list text) : bool := teq (fst r) net || mem net (snd r).

Lemma adjacent_none net rs : adjacent net rs None = if existsb (relevant net) rs then Err AttributeError else Ok None.
Proof.
  induction rs as [|[n a] rs IH]; [reflexivity|]. cbn [adjacent existsb]. unfold relevant at 1. cbn [fst snd].
  destruct (teq n net); [reflexivity|]. destruct (mem net a); [reflexivity|]. exact IH.
Qed.

Fixpoint bad (net : text) (rs : list (text * list text)) : bool :=
  match rs with [] => false | (n, a) :: r => if teq n net then existsb (relevant net) r else bad net r end.

Lemma adjacent_spec net rs : forall s, adjacent net rs (Some s) =
  if bad net rs then Err AttributeError
  else Ok (if existsb (fun r => teq (fst r) net) rs then None else Some (s ++ map fst (filter (fun r => mem net (snd r)) rs))).
Proof.
  induction rs as [|[n a] rs IH]; intros s; [cbn; now rewrite app_nil_r|]. cbn [adjacent bad existsb fst snd filter].
  destruct (teq n net) eqn:E.
  - rewrite adjacent_none. cbn. destruct (existsb (relevant net) rs); reflexivity.
  - cbn [orb]. destruct (mem net a).
    + rewrite IH. cbn [map fst]. rewrite <- app_assoc. reflexivity.
    + apply IH.
Qed.

Lemma existsb_split {A} (p : A -> bool) l : existsb p l = true <-> exists l1 x l2, l = l1 ++ x :: l2 /\ p x = true.
Proof.
  split.
  - induction l as [|x l IH]; [discriminate|]. cbn. destruct (p x) eqn:E; [intros _; exists [], x, l; auto|]. cbn. intros H.
    destruct (IH H) as (l1 & y & l2 & -> & Hy). exists (x :: l1), y, l2. auto.
  - intros (l1 & x & l2 & -> & H). rewrite existsb_app. cbn. rewrite H. apply Bool.orb_true_r.
Qed.

Lemma relevant_true net m b : relevant net (m, b) = true <-> m = net \/ In net b.
Proof. unfold relevant. cbn [fst snd]. now rewrite Bool.orb_true_iff, teq_true, mem_true. Qed.

Lemma bad_clash net l : bad net (adjacency_records l) = true <-> clash l net.
Proof.
  unfold clash. split.
  - induction l as [|s l IH]; [discriminate|]. intros H. destruct s as [| | | | |n a|];
      try (destruct (IH H) as (l1 & x & l2 & m & b & l3 & -> & K); eexists (_ :: l1), x, l2, m, b, l3; cbn; split; [reflexivity|exact K]).
    change (adjacency_records (IAdjacency n a :: l)) with ((n, a) :: adjacency_records l) in H. cbn [bad] in H.
    destruct (teq n net) eqn:E.
    + apply teq_true in E. subst n. apply existsb_exists in H. destruct H as ([m b] & Hin & R). apply relevant_true in R.
      apply in_adjacency in Hin. apply in_split in Hin. destruct Hin as (l2 & l3 & ->). exists [], a, l2, m, b, l3. auto.
    + destruct (IH H) as (l1 & x & l2 & m & b & l3 & -> & K). eexists (_ :: l1), x, l2, m, b, l3. cbn. split; [reflexivity|exact K].
  - intros (l1 & a & l2 & m & b & l3 & -> & K). induction l1 as [|s l1 IH].
    + cbn [app]. change (adjacency_records (IAdjacency net a :: ?r)) with ((net, a) :: adjacency_records r). cbn [adjacency_records flat_map app bad]. rewrite teq_refl.
      apply existsb_exists. exists (m, b). split; [|now apply relevant_true]. apply in_adjacency, in_or_app. right. now left.
    + destruct s as [| | | | |n x|]; try exact IH. cbn [app].
      change (adjacency_records (IAdjacency n x :: l1 ++ IAdjacency net a :: l2 ++ IAdjacency m b :: l3)) with ((n, x) :: adjacency_records (l1 ++ IAdjacency net a :: l2 ++ IAdjacency m b :: l3)).
      cbn [bad]. destruct (teq n net) eqn:E; [|exact IH]. apply existsb_exists. exists (m, b). split; [|now apply relevant_true].
      apply in_adjacency, in_or_app. right. right. apply in_or_app. right. now left.
Qed.

Lemma mapM_ok_map {A B} (f : A -> res B) (g : A -> B) l : (forall x, In x l -> f x = Ok (g x)) -> mapM f l = Ok (map g l).
Proof. intros H. induction l as [|x l IH]; [reflexivity|]. cbn. rewrite (H x (or_introl eq_refl)). cbn. rewrite IH; [reflexivity|]. intros; apply H; now right. Qed.
Lemma mapM_err {A B} (f : A -> res B) l e : (forall x, In x l -> f x = Err e \/ is_ok (f x) = true) -> (exists x, In x l /\ f x = Err e) -> mapM f l = Err e.
Proof.
  induction l as [|y l IH]; intros H (x & Hx & E); [destruct Hx|]. cbn. destruct (H y (or_introl eq_refl)) as [K|K].
  - now rewrite K.
  - destruct (f y) eqn:F; [|discriminate]. cbn. rewrite IH; [reflexivity| |].
    + intros z Hz. apply H. now right.
    + destruct Hx as [->|Hx]; [congruence|]. eauto.
Qed.

Lemma C56_lemma : forall l,
  ((exists n, has_net l n /\ clash l n) -> nets l = Err AttributeError) /\
  ((forall n, has_net l n -> ~ clash l n) -> exists ns, nets l = Ok ns /\
     NoDup (map fst ns) /\ (forall n, In n (map fst ns) <-> has_net l n) /\
     (forall n adj, In (n, adj) ns -> NoDup adj /\ (heads l n -> adj = []) /\ (~ heads l n -> forall b, In b adj <-> declared l n b))).
Proof.
  intros l. set (names := to_set (map tr_net (test_records l))).
  assert (Hn : forall n, In n names <-> has_net l n).
  { intros n. unfold names, has_net. rewrite to_set_in, in_map_iff. split; intros (r & A & B); exists r; rewrite in_records in *; auto. }
  set (f := fun net => do s <- adjacent net (adjacency_records l) (Some []); Ok (net, match s with Some a => to_set a | None => [] end)).
  assert (Hf : forall n, f n = if bad n (adjacency_records l) then Err AttributeError else
     Ok (n, if existsb (fun r => teq (fst r) n) (adjacency_records l) then [] else to_set (map fst (filter (fun r => mem n (snd r)) (adjacency_records l))))).
  { intros n. unfold f. rewrite adjacent_spec. destruct (bad n _); [reflexivity|]. cbn. now destruct (existsb _ _). }
  split.
  - intros (n & H1 & H2). unfold nets. fold f names. apply mapM_err.
    + intros x _. rewrite Hf. destruct (bad x _); auto.
    + exists n. split; [now apply Hn|]. rewrite Hf. apply bad_clash in H2. now rewrite H2.
  - intros H. unfold nets. fold f names. eexists. split.
    { apply mapM_ok_map with (g := fun n => (n, if existsb (fun r => teq (fst r) n) (adjacency_records l) then [] else to_set (map fst (filter (fun r => mem n (snd r)) (adjacency_records l))))).
      intros x Hx. rewrite Hf. destruct (bad x (adjacency_records l)) eqn:E; [|reflexivity]. apply bad_clash in E. apply Hn in Hx. now apply H in Hx. }
    rewrite map_map. cbn [fst]. rewrite map_id. split; [apply to_set_nodup|]. split; [exact Hn|].
    intros n adj Hin. apply in_map_iff in Hin. destruct Hin as (m & E & _). injection E as -> <-. split; [|split].
    + destruct (existsb _ _); [constructor|apply to_set_nodup].
    + intros (a & Ha). apply in_adjacency in Ha.
      assert (E : existsb (fun r => teq (fst r) n) (adjacency_records l) = true) by (apply existsb_exists; exists (n, a); split; [exact Ha|apply teq_refl]).
      now rewrite E.
    + intros NH b. assert (E : existsb (fun r => teq (fst r) n) (adjacency_records l) = false).
      { apply Bool.not_true_is_false. intros K. apply existsb_exists in K. destruct K as ([x a] & K1 & K2). cbn in K2. apply teq_true in K2. subst x.
        apply NH. exists a. now apply in_adjacency. }
      rewrite E, to_set_in, in_map_iff. unfold declared. split.
      * intros ([x a] & <- & K). apply filter_In in K. destruct K as [K1 K2]. cbn in *. apply mem_true in K2. apply in_adjacency in K1. exists x, a. auto.
      * intros (x & a & Hin & [[-> Hb]|[-> Hb]]).
        -- exfalso. apply NH. now exists a.
        -- exists (b, a). split; [reflexivity|]. apply filter_In. split; [now apply in_adjacency|now apply mem_true].
Qed.

Definition rec_of (n : text) : test_record := mkTR ThroughHole n [] None false None None None None None None None None None None.
Lemma C56_refuted_lemma :
  (exists l ns n b, nets l = Ok ns /\ In (n, []) ns /\ declared l n b) /\
  (exists l, nets l = Err AttributeError).
Proof.
  split.
  - exists [ITest (rec_of (T "A")); ITest (rec_of (T "B")); IAdjacency (T "A") [T "B"]]. eexists. exists (T "A"), (T "B").
    split; [vm_compute; reflexivity|]. split; [now left|]. exists (T "A"), [T "B"]. split; [right; right; now left|]. left. split; [reflexivity|now left].
  - exists [ITest (rec_of (T "A")); IAdjacency (T "A") [T "B"]; IAdjacency (T "A") [T "C"]]. vm_compute. reflexivity.
Qed.

(** ** The columns of a test record *)

Definition before (k : nat) (l : list text) : nat := list_sum (map (@List.length ascii) (firstn k l)).
Lemma cut_at l : forall k a b, a = before k l -> b = a + List.length (nth k l []) -> slice a b (List.concat l) = nth k l [].
Proof.
  induction l as [|f l IH]; intros k a b -> ->.
  - unfold slice. cbn [List.concat]. rewrite skipn_nil, firstn_nil. now destruct k.
  - destruct k as [|k].
    + cbn. unfold slice. cbn [skipn]. rewrite Nat.sub_0_r, firstn_app, firstn_all, Nat.sub_diag. apply app_nil_r.
    + change (before (S k) (f :: l)) with (List.length f + before k l). cbn [nth List.concat]. unfold slice in *.
      rewrite skipn_app, (skipn_all2 f) by lia. cbn [app]. replace (List.length f + before k l - List.length f) with (before k l) by lia.
      etransitivity; [|apply (IH k _ _ eq_refl eq_refl)]. f_equal. lia.
Qed.
Lemma pick_at l : forall k a c, a = before k l -> nth k l [] = [c] -> char_at a (List.concat l) = Ok c.
Proof.
  intros k a c H E. assert (S1 : slice a (a + 1) (List.concat l) = [c]) by (rewrite <- E; apply cut_at; [exact H|now rewrite E]).
  unfold slice in S1. replace (a + 1 - a) with 1 in S1 by lia. unfold char_at.
  rewrite <- (firstn_skipn a (List.concat l)) at 1. destruct (skipn a (List.concat l)) as [|d r] eqn:F; [discriminate|]. cbn in S1. injection S1 as ->.
  assert (L : List.length (firstn a (List.concat l)) = a).
  { apply firstn_length_le. destruct (Nat.le_gt_cases a (List.length (List.concat l))) as [|G]; [assumption|]. rewrite skipn_all2 in F by lia. discriminate. }
  rewrite nth_error_app2, L, Nat.sub_diag by lia. reflexivity.
Qed.

Lemma strip_keep s : trimmed s -> strip s = s.
Proof.
  intros [A B]. unfold strip, strip_p. rewrite lstrip_p_keep by exact A. apply rstrip_p_keep. intros r c E. eapply B, E.
Qed.
Lemma lstrip_all p s : forallb p s = true -> lstrip_p p s = [].
Proof. induction s as [|c s IH]; [reflexivity|]. cbn. destruct (p c); [exact IH|discriminate]. Qed.
Lemma lstrip_p_app p a s : forallb p a = true -> lstrip_p p (a ++ s) = lstrip_p p s.
Proof. induction a as [|c a IH]; [reflexivity|]. cbn. destruct (p c); [exact IH|discriminate]. Qed.
Lemma rstrip_p_app p s a : forallb p a = true -> rstrip_p p (s ++ a) = rstrip_p p s.
Proof.
  intros H. unfold rstrip_p. rewrite rev_app_distr, lstrip_p_app; [reflexivity|]. rewrite forallb_forall in *. intros x Hx. apply H. now apply in_rev.
Qed.
Lemma spaces_blank n : forallb is_space (repeat " "%char n) = true.
Proof. induction n; [reflexivity|exact IHn]. Qed.
Lemma strip_pad n t : trimmed t -> strip (pad n t) = t.
Proof.
  intros H. unfold pad, strip, strip_p. destruct t as [|c t].
  - cbn [app]. rewrite lstrip_all by apply spaces_blank. reflexivity.
  - rewrite lstrip_p_keep. 2:{ intros d r E. cbn in E. injection E as <- _. now apply (proj1 H c t). }
    rewrite rstrip_p_app by apply spaces_blank. apply rstrip_p_keep. intros r d E. eapply (proj2 H), E.
Qed.
Lemma pad_length n t : List.length t <= n -> List.length (pad n t) = n.
Proof. intros H. unfold pad. rewrite app_length, repeat_length. lia. Qed.

Lemma digit_not_space c : is_digit c = true -> is_space c = false.
Proof.
  unfold is_digit, is_space. intros H. apply Bool.andb_true_iff in H. destruct H as [A B]. apply Nat.leb_le in A, B.
  apply Bool.orb_false_iff. split; apply Bool.andb_false_iff; right; apply Nat.leb_gt; lia.
Qed.
Lemma digits_trimmed s : all_digits s = true -> trimmed s.
Proof.
  unfold all_digits. rewrite forallb_forall. intros H. split; intros c r ->; apply digit_not_space, H; [now left|]. apply in_or_app. right. now left.
Qed.
Lemma digit_not_sign c : is_digit c = true -> ceq c "-"%char = false /\ ceq c "+"%char = false.
Proof.
  intros H. split; apply ceq_false; intros ->; discriminate.
Qed.
Lemma py_int_digits s : s <> [] -> all_digits s = true -> py_int s = Ok (dval s).
Proof.
  intros N H. destruct s as [|c s]; [easy|]. unfold py_int. assert (Hc : is_digit c = true) by (cbn in H; apply Bool.andb_true_iff in H; tauto).
  destruct (digit_not_sign c Hc) as [-> ->]. rewrite H. f_equal. apply Z.mul_1_l.
Qed.
Lemma int_dig n z : (0 < n) -> (0 <= z < 10 ^ Z.of_nat n)%Z -> int_of (dig n z) = Ok z.
Proof.
  intros Hn Hz. unfold int_of. rewrite strip_keep by (apply digits_trimmed, dig_digits).
  rewrite py_int_digits; [|intros E; apply (f_equal (@List.length ascii)) in E; rewrite dig_length in E; cbn in E; lia|apply dig_digits].
  f_equal. rewrite dval_dig. apply Z.mod_small. lia.
Qed.
Lemma int_signed n z : (0 < n) -> (- 10 ^ Z.of_nat n < z < 10 ^ Z.of_nat n)%Z -> int_of (signed n z) = Ok z.
Proof.
  intros Hn Hz. unfold int_of, signed.
  assert (Ns : dig n (Z.abs z) <> []) by (intros E; apply (f_equal (@List.length ascii)) in E; rewrite dig_length in E; cbn in E; lia).
  assert (V : dval (dig n (Z.abs z)) = Z.abs z) by (rewrite dval_dig; apply Z.mod_small; lia).
  rewrite strip_keep.
  - unfold py_int. destruct (Z.ltb_spec z 0).
    + change (ceq "-" "-") with true. cbv iota. destruct (dig n (Z.abs z)) eqn:E; [easy|]. rewrite <- E at 1. rewrite dig_digits, <- E. f_equal. rewrite E, V. lia.
    + change (ceq "+" "-") with false. change (ceq "+" "+") with true. cbv iota. destruct (dig n (Z.abs z)) eqn:E; [easy|]. rewrite <- E at 1. rewrite dig_digits. f_equal. rewrite V. lia.
  - split.
    + intros c r E. injection E as <- _. now destruct (z <? 0)%Z.
    + intros c r E. destruct r as [|x r]; injection E as E1 E2.
      * congruence.
      * apply (digits_trimmed (dig n (Z.abs z)) (dig_digits _ _)) with (r := r). exact E2.
Qed.

Lemma in_dig_dash n z : ~ In "-"%char (dig n z).
Proof.
  pose proof (dig_digits n z) as H. unfold all_digits in H. rewrite forallb_forall in H. intros K. specialize (H _ K). discriminate.
Qed.

Lemma access_ok n : (0 <= n <= 8)%Z -> list_at access_list n = Ok (access_of n).
Proof.
  intros H. assert (E : (n = 0 \/ n = 1 \/ n = 2 \/ n = 3 \/ n = 4 \/ n = 5 \/ n = 6 \/ n = 7 \/ n = 8)%Z) by lia.
  repeat (destruct E as [->|E]; [reflexivity|]). subst. reflexivity.
Qed.
Lemma mask_ok n : (0 <= n < 10)%Z -> sm_field (strip (dig 1 n)) = mask_of n.
Proof.
  intros H. assert (E : (n = 0 \/ n = 1 \/ n = 2 \/ n = 3 \/ n = 4 \/ n = 5 \/ n = 6 \/ n = 7 \/ n = 8 \/ n = 9)%Z) by lia.
  repeat (destruct E as [->|E]; [reflexivity|]). subst. reflexivity.
Qed.

Lemma find_dash_app a r : ~ In "-"%char a -> find_dash (a ++ "-"%char :: r) = Some (List.length a).
Proof.
  induction a as [|c a IH]; [reflexivity|]. intros H. cbn [app find_dash]. destruct (ceq_spec c "-"%char) as [->|]; [exfalso; apply H; now left|].
  rewrite IH by (intro; apply H; now right). reflexivity.
Qed.
Lemma find_dash_none a : ~ In "-"%char a -> find_dash a = None.
Proof.
  induction a as [|c a IH]; [reflexivity|]. intros H. cbn [find_dash]. destruct (ceq_spec c "-"%char) as [->|]; [exfalso; apply H; now left|].
  rewrite IH by (intro; apply H; now right). reflexivity.
Qed.

Lemma field_in line a b lim : lim <= List.length line -> field line a b lim = slice a b line.
Proof. intros H. unfold field. destruct (Nat.ltb_spec (List.length line) lim); [lia|reflexivity]. Qed.
Lemma reaches_in {A} line lim (v : res (option A)) : lim <= List.length line -> reaches line lim v = v.
Proof. intros H. unfold reaches. destruct (Nat.leb_spec lim (List.length line)); [reflexivity|lia]. Qed.
Lemma reaches_out {A} line lim (v : res (option A)) : List.length line < lim -> reaches line lim v = Ok None.
Proof. intros H. unfold reaches. destruct (Nat.leb_spec lim (List.length line)); [lia|reflexivity]. Qed.

Section Segments.
  Variables (fc sep cm cd cp : ascii) (net id pin dia acc x y w h rot sm : text) (o : nat).
  Hypothesis Hnet : List.length net = 14.
  Hypothesis Hid : List.length id = 6 + o.
  Hypothesis Hpin : List.length pin = 4.
  Hypothesis Hdia : List.length dia = 4.
  Hypothesis Hacc : List.length acc = 2.
  Hypothesis Hx : List.length x = 7.
  Hypothesis Hy : List.length y = 7.
  Hypothesis Hw : List.length w = 4.
  Hypothesis Hh : List.length h = 4.
  Hypothesis Hrot : List.length rot = 3.
  Hypothesis Hsm : List.length sm = 1.
  Definition seg_list : list text :=
    [T "3"; [fc]; T "7"; net; T "   "; id; [sep]; pin; [cm]; [cd]; dia; [cp]; T "A"; acc;
     T "X"; x; T "Y"; y; T "X"; w; T "Y"; h; T "R"; rot; T " S"; sm].
  Definition segs : text := List.concat seg_list.

  Lemma segs_length : List.length segs = 74 + o.
  Proof. unfold segs, seg_list. cbn [List.concat]. rewrite !app_length. cbn [T list_ascii_of_string List.length]. lia. Qed.

  Ltac cut k := apply (cut_at seg_list k); unfold before, seg_list; cbn [firstn map list_sum fold_right nth T list_ascii_of_string List.length]; lia.
  Lemma cut : slice 3 17 segs = net /\ slice 20 (26 + o) segs = id /\ slice (27 + o) (31 + o) segs = pin /\
    slice (33 + o) (37 + o) segs = dia /\ slice (39 + o) (41 + o) segs = acc /\ slice (42 + o) (49 + o) segs = x /\
    slice (50 + o) (57 + o) segs = y /\ slice (58 + o) (62 + o) segs = w /\ slice (63 + o) (67 + o) segs = h /\
    slice (68 + o) (71 + o) segs = rot /\ slice (73 + o) (74 + o) segs = sm.
  Proof.
    split; [cut 3|]. split; [cut 5|]. split; [cut 7|]. split; [cut 10|]. split; [cut 13|]. split; [cut 15|].
    split; [cut 17|]. split; [cut 19|]. split; [cut 21|]. split; [cut 23|]. cut 25.
  Qed.
  Ltac pick k := apply (pick_at seg_list k); [unfold before, seg_list; cbn [firstn map list_sum fold_right nth T list_ascii_of_string List.length]; lia|reflexivity].
  Lemma pick : char_at 0 segs = Ok "3"%char /\ char_at 1 segs = Ok fc /\ char_at (31 + o) segs = Ok cm /\
    char_at (32 + o) segs = Ok cd /\ char_at (37 + o) segs = Ok cp.
  Proof. split; [pick 0|]. split; [pick 1|]. split; [pick 8|]. split; [pick 9|]. pick 11. Qed.

  Lemma behind26 : skipn 26 segs = skipn 6 id ++ [sep] ++ pin ++ [cm] ++ [cd] ++ dia ++ [cp] ++ T "A" ++ acc ++
    T "X" ++ x ++ T "Y" ++ y ++ T "X" ++ w ++ T "Y" ++ h ++ T "R" ++ rot ++ T " S" ++ sm.
  Proof.
    unfold segs, seg_list. cbn [List.concat]. rewrite app_nil_r. rewrite (app_assoc (T "3")), (app_assoc _ (T "7")), (app_assoc _ net), (app_assoc _ (T "   ")).
    set (pre := (((T "3" ++ [fc]) ++ T "7") ++ net) ++ T "   ").
    assert (L : List.length pre = 20) by (unfold pre; rewrite !app_length; cbn [T list_ascii_of_string List.length]; lia).
    set (rest := [sep] ++ _). clearbody pre rest. rewrite skipn_app, L. rewrite (skipn_all2 pre) by lia. cbn [app].
    rewrite skipn_app. replace (26 - 20) with 6 by lia. rewrite Hid. replace (6 - (6 + o)) with 0 by lia. reflexivity.
  Qed.

  Lemma dash_ok : (sep = "-"%char /\ ~ In "-"%char (skipn 6 id)) \/
     (o = 0 /\ sep <> "-"%char /\ ~ In "-"%char pin /\ ~ In "-"%char x /\ ~ In "-"%char y /\ cm <> "-"%char /\ cd <> "-"%char /\ ~ In "-"%char dia /\ cp <> "-"%char /\
      ~ In "-"%char acc /\ ~ In "-"%char w /\ ~ In "-"%char h /\ ~ In "-"%char rot /\ ~ In "-"%char sm) -> dash_offset segs = o.
  Proof.
    intros H. unfold dash_offset.
    assert (E : nth_error segs 26 = nth_error (skipn 26 segs) 0).
    { rewrite <- (firstn_skipn 26 segs) at 1. rewrite nth_error_app2; rewrite firstn_length, segs_length; [|lia]. f_equal; lia. }
    rewrite E, behind26. destruct H as [[-> H]|(-> & H0 & H)].
    - assert (L : List.length (skipn 6 id) = o) by (rewrite skipn_length; lia).
      destruct (skipn 6 id) as [|c r] eqn:Es.
      + cbn [app nth_error]. change (ceq "-" "-") with true. cbn in L. now subst.
      + cbn [app nth_error]. destruct (ceq_spec c "-"%char) as [->|N]; [exfalso; apply H; now left|].
        match goal with |- context [find_dash (c :: r ++ ?z)] => change (c :: r ++ z) with ((c :: r) ++ z) end. rewrite find_dash_app by exact H. exact L.
    - assert (L : skipn 6 id = []) by (apply skipn_all2; lia). rewrite L. cbn [app nth_error].
      destruct (ceq_spec sep "-"%char) as [->|N]; [easy|]. rewrite find_dash_none; [reflexivity|].
      intros K. cbn [T list_ascii_of_string app In] in K.
      repeat (rewrite in_app_iff in K || cbn [In] in K).
      destruct H as (P1 & P2 & P3 & P4 & P5 & P6 & P7 & P8 & P9 & Q1 & Q2 & Q3).
      repeat (destruct K as [K|K]; [try congruence; try contradiction|]); try discriminate; try contradiction.
  Qed.
End Segments.

Lemma record_segs wid c : exists cd dia, List.length dia = 4 /\ ~ In "-"%char dia /\ cd <> "-"%char /\
  (match co_hole c with Some d => cd = "D"%char /\ dia = dig 4 d | None => cd = " "%char /\ dia = T "    " end) /\
  record_line wid c = segs (co_feature c) (co_sep c) (if co_middle c then "M"%char else " "%char) cd (if co_plated c then "P"%char else "U"%char)
    (pad 14 (co_net c)) (pad wid (co_id c)) (pad 4 (co_pin c)) dia (dig 2 (co_access c)) (signed 6 (co_x c)) (signed 6 (co_y c))
    (dig 4 (co_w c)) (dig 4 (co_h c)) (dig 3 (co_rot c)) (dig 1 (co_mask c)).
Proof.
  destruct (co_hole c) as [d|] eqn:E.
  - exists "D"%char, (dig 4 d). split; [apply dig_length|]. split; [apply in_dig_dash|]. split; [discriminate|]. split; [auto|].
    unfold record_line, segs, seg_list. rewrite E. cbn [List.concat]. rewrite app_nil_r.
    destruct (co_middle c), (co_plated c); reflexivity.
  - exists " "%char, (T "    "). split; [reflexivity|]. split; [cbn; intuition discriminate|]. split; [discriminate|]. split; [auto|].
    unfold record_line, segs, seg_list. rewrite E. cbn [List.concat]. rewrite app_nil_r.
    destruct (co_middle c), (co_plated c); reflexivity.
Qed.

Lemma signed_length n z : List.length (signed n z) = S n.
Proof. unfold signed. cbn. now rewrite dig_length. Qed.
Lemma signed_dash n z : (0 <= z)%Z -> ~ In "-"%char (signed n z).
Proof. intros H. unfold signed. destruct (Z.ltb_spec z 0); [lia|]. intros [K|K]; [discriminate|now apply in_dig_dash in K]. Qed.
Lemma pad_in c n t : In c (pad n t) -> In c t \/ c = " "%char.
Proof. unfold pad. rewrite in_app_iff. intros [H|H]; [now left|]. right. now apply repeat_spec in H. Qed.

Lemma segs_trimmed fc sep cm cd cp net id pin dia acc x y w h rot d : is_digit d = true ->
  trimmed (segs fc sep cm cd cp net id pin dia acc x y w h rot [d]).
Proof.
  intros H. split.
  - intros c r E. unfold segs, seg_list in E. cbn in E. injection E as <- _. reflexivity.
  - intros c r E. unfold segs, seg_list in E. cbn [List.concat] in E. rewrite app_nil_r in E. rewrite !app_assoc in E. apply app_inj_tail in E.
    destruct E as [_ <-]. now apply digit_not_space.
Qed.

Lemma feature_ok c f : feature_of c f -> feature_types c = Ok f.
Proof. intros [[-> ->]|[[-> ->]|[[-> ->]|[[-> ->]|[-> ->]]]]]; reflexivity. Qed.

Lemma scale_units se z : scale se z = units se z.
Proof. unfold scale, units. now destruct (is_metric se). Qed.

Lemma dig1 z : (0 <= z < 10)%Z -> exists d, dig 1 z = [d] /\ is_digit d = true.
Proof.
  intros H. pose proof (dig_length 1 z) as L. pose proof (dig_digits 1 z) as D. destruct (dig 1 z) as [|d [|]]; try discriminate.
  exists d. split; [reflexivity|]. cbn in D. now destruct (is_digit d).
Qed.

Lemma strip_dig n z : strip (dig n z) = dig n z.
Proof. apply strip_keep, digits_trimmed, dig_digits. Qed.
Lemma dig_cons n z : (0 < n) -> exists d r, dig n z = d :: r.
Proof.
  intros Hn. destruct (dig n z) eqn:E; [|eauto]. apply (f_equal (@List.length ascii)) in E. rewrite dig_length in E. cbn in E. lia.
Qed.

Lemma C71_lemma : forall se wid c f, is_radians se = false -> feature_of (co_feature c) f -> fits_columns wid c -> dash_found wid c ->
  record_from_line (record_line wid c) se = Ok (the_record se f c).
Proof.
  intros se wid c f R F (L1 & L2 & L3 & T1 & T2 & T3 & Hh & Ha & Hx & Hy & Hw & Hhh & Hr & Hm) [W D].
  destruct (record_segs wid c) as (cd & dia & Ld & Nd & Ncd & Ed & ->).
  set (line := segs _ _ _ _ _ _ _ _ _ _ _ _ _ _ _ _).
  set (o := wid - 6).
  assert (Lid : List.length (pad wid (co_id c)) = 6 + o) by (rewrite pad_length by exact L2; unfold o; lia).
  pose proof (segs_length (co_feature c) (co_sep c) (if co_middle c then "M"%char else " "%char) cd (if co_plated c then "P"%char else "U"%char)
    (pad 14 (co_net c)) (pad wid (co_id c)) (pad 4 (co_pin c)) dia (dig 2 (co_access c)) (signed 6 (co_x c)) (signed 6 (co_y c))
    (dig 4 (co_w c)) (dig 4 (co_h c)) (dig 3 (co_rot c)) (dig 1 (co_mask c)) o (pad_length _ _ L1) Lid (pad_length _ _ L3) Ld (dig_length _ _) (signed_length _ _) (signed_length _ _)
    (dig_length _ _) (dig_length _ _) (dig_length _ _) (dig_length _ _)) as LL. fold line in LL.
  pose proof (cut (co_feature c) (co_sep c) (if co_middle c then "M"%char else " "%char) cd (if co_plated c then "P"%char else "U"%char)
    (pad 14 (co_net c)) (pad wid (co_id c)) (pad 4 (co_pin c)) dia (dig 2 (co_access c)) (signed 6 (co_x c)) (signed 6 (co_y c))
    (dig 4 (co_w c)) (dig 4 (co_h c)) (dig 3 (co_rot c)) (dig 1 (co_mask c)) o (pad_length _ _ L1) Lid (pad_length _ _ L3) Ld (dig_length _ _) (signed_length _ _) (signed_length _ _)
    (dig_length _ _) (dig_length _ _) (dig_length _ _) (dig_length _ _)) as CC. fold line in CC.
  pose proof (pick (co_feature c) (co_sep c) (if co_middle c then "M"%char else " "%char) cd (if co_plated c then "P"%char else "U"%char)
    (pad 14 (co_net c)) (pad wid (co_id c)) (pad 4 (co_pin c)) dia (dig 2 (co_access c)) (signed 6 (co_x c)) (signed 6 (co_y c))
    (dig 4 (co_w c)) (dig 4 (co_h c)) (dig 3 (co_rot c)) (dig 1 (co_mask c)) o (pad_length _ _ L1) Lid (pad_length _ _ L3) Ld (dig_length _ _) (signed_length _ _) (signed_length _ _)
    (dig_length _ _) (dig_length _ _) (dig_length _ _) (dig_length _ _)) as PP. fold line in PP.
  pose proof (dash_ok (co_feature c) (co_sep c) (if co_middle c then "M"%char else " "%char) cd (if co_plated c then "P"%char else "U"%char)
    (pad 14 (co_net c)) (pad wid (co_id c)) (pad 4 (co_pin c)) dia (dig 2 (co_access c)) (signed 6 (co_x c)) (signed 6 (co_y c))
    (dig 4 (co_w c)) (dig 4 (co_h c)) (dig 3 (co_rot c)) (dig 1 (co_mask c)) o (pad_length _ _ L1) Lid (pad_length _ _ L3) Ld (dig_length _ _) (signed_length _ _) (signed_length _ _)
    (dig_length _ _) (dig_length _ _) (dig_length _ _) (dig_length _ _)) as DD. fold line in DD.
  assert (DO : dash_offset line = o).
  { apply DD. destruct D as [[A B]|(A & B & C & E1 & E2)]; [left; auto|]. right.
    split; [unfold o; lia|]. split; [exact B|]. split; [intros K; apply pad_in in K; destruct K; [contradiction|discriminate]|].
    split; [now apply signed_dash|]. split; [now apply signed_dash|]. split; [now destruct (co_middle c)|]. split; [exact Ncd|]. split; [exact Nd|].
    split; [now destruct (co_plated c)|]. repeat split; apply in_dig_dash. }
  assert (TL : strip line = line).
  { apply strip_keep. unfold line. destruct (dig1 (co_mask c) Hm) as (d & -> & Hd). now apply segs_trimmed. }
  destruct CC as (C1 & C2 & C3 & C4 & C5 & C6 & C7 & C8 & C9 & C10 & C11). destruct PP as (P1 & P2 & P3 & P4 & P5). clear DD. clearbody line.
  unfold record_from_line. rewrite TL, P1. cbn [bind]. change (negb (ceq "3" "3")) with false. cbv iota. rewrite P2. cbn [bind]. rewrite (feature_ok _ _ F). cbn [bind].
  rewrite DO, P3. cbn [bind]. rewrite P4. cbn [bind]. rewrite (field_in line 3), (field_in line 20), (field_in line (27 + o)), (field_in line (33 + o)), (field_in line (39 + o)), (field_in line (42 + o)),
    (field_in line (50 + o)), (field_in line (58 + o)), (field_in line (63 + o)), (field_in line (68 + o)) by lia.
  rewrite (reaches_in line (38 + o)), (reaches_in line (40 + o)), !(reaches_in line (43 + o)), !(reaches_in line (51 + o)), !(reaches_in line (59 + o)), !(reaches_in line (64 + o)), !(reaches_in line (69 + o)), (reaches_in line (74 + o)) by lia.
  rewrite P5. cbn [bind].
  rewrite (reaches_out line (76 + o)) by lia. cbn [bind].
  rewrite C1, C2, C3, C4, C5, C6, C7, C8, C9, C10, C11.
  rewrite !int_signed by (cbn; lia). rewrite (int_dig 2) by (cbn; lia). rewrite !strip_pad by assumption.
  rewrite (strip_dig 4 (co_w c)), (strip_dig 4 (co_h c)), (strip_dig 3 (co_rot c)).
  destruct (dig_cons 4 (co_w c)) as (d1 & r1 & E1); [lia|]. destruct (dig_cons 4 (co_h c)) as (d2 & r2 & E2); [lia|]. destruct (dig_cons 3 (co_rot c)) as (d3 & r3 & E3); [lia|].
  rewrite E1, E2, E3. cbv iota. rewrite <- E1, <- E2, <- E3. rewrite !int_dig by (cbn; lia). cbn [bind]. rewrite access_ok by exact Ha. cbn [bind]. rewrite R. cbn [bind]. rewrite mask_ok by exact Hm.
  assert (HH : (if ceq cd "D"%char then do n <- int_of dia; Ok (Some (scale se n)) else Ok None) = Ok (option_map (units se) (co_hole c))).
  { destruct (co_hole c) as [d|]; destruct Ed as [-> ->]; [|reflexivity]. change (ceq "D" "D") with true. cbv iota. rewrite int_dig by (cbn; lia). cbn. now rewrite scale_units. }
  rewrite HH. cbn [bind]. rewrite !scale_units. unfold the_record. f_equal. f_equal.
  - now destruct (co_pin c).
  - now destruct (co_middle c).
  - now destruct (co_plated c).
Qed.

Lemma trimmed_dec t : (match t with c :: _ => negb (is_space c) | [] => true end) && (match rev t with c :: _ => negb (is_space c) | [] => true end) = true -> trimmed t.
Proof.
  intros H. apply Bool.andb_true_iff in H. destruct H as [A B]. split.
  - intros c r ->. now apply Bool.negb_true_iff in A.
  - intros c r ->. rewrite rev_app_distr in B. cbn in B. now apply Bool.negb_true_iff in B.
Qed.

(** What goes wrong outside those conditions. *)
Definition via (x : Z) : columns :=
  mkCols "1" (T "GND") (T "VIA") " " [] true (Some 118%Z) true 0 x 200 0 0 0 0.
Lemma C71_refuted_lemma :
  (exists c f, feature_of (co_feature c) f /\ fits_columns 6 c /\ co_pin c = [] /\ is_ok (record_from_line (record_line 6 c) (mkIS false false)) = false) /\
  (exists c, fits_columns 6 c /\ dash_found 6 c /\ record_from_line (record_line 6 c) (mkIS false true) = Err TypeError) /\
  (exists c r, fits_columns 6 c /\ dash_found 6 c /\ record_from_line (firstn 57 (record_line 6 c)) (mkIS false false) = Ok r /\
     co_y c = 200%Z /\ tr_y r = Some (units (mkIS false false) 20)).
Proof.
  assert (FC : forall x, (-1000000 < x < 1000000)%Z -> fits_columns 6 (via x)).
  { intros x Hx. assert (TG : trimmed (T "GND")) by (apply trimmed_dec; reflexivity). assert (TV : trimmed (T "VIA")) by (apply trimmed_dec; reflexivity).
    assert (TE : trimmed []) by (apply trimmed_dec; reflexivity).
    unfold fits_columns, via. cbn [co_net co_id co_pin co_hole co_access co_x co_y co_w co_h co_rot co_mask].
    split; [cbn; lia|]. split; [cbn; lia|]. split; [cbn; lia|]. split; [exact TG|]. split; [exact TV|]. split; [exact TE|]. lia. }
  split; [|split].
  - exists (via (-100)), ThroughHole. split; [left; auto|]. split; [apply FC; lia|]. split; [reflexivity|]. vm_compute. reflexivity.
  - exists (via 100). split; [apply FC; lia|]. split; [|vm_compute; reflexivity]. split; [lia|]. right. cbn. repeat split; try lia; try discriminate; auto.
  - exists (via 100). eexists. split; [apply FC; lia|]. split; [split; [lia|]; right; cbn; repeat split; try lia; try discriminate; auto|].
    split; [vm_compute; reflexivity|]. split; [reflexivity|]. cbn [tr_y]. f_equal; apply qc_eq_iff; vm_compute; reflexivity.
Qed.

(** ** Words *)

Lemma words_word w : a_word w -> words w = [w].
Proof.
  intros [N F]. destruct w as [|c w]; [easy|]. inversion F as [|? ? Hc Fw]; subst.
  destruct (LayersProofs.words_cons c w Hc) as (u & r & E & -> & Fu & Hr).
  destruct Hr as [->|(d & r' & -> & Hd)]; [rewrite app_nil_r in *; exact E|].
  apply Forall_app in Fw. destruct Fw as [_ Fw]. inversion Fw; subst. congruence.
Qed.
Lemma words_app w s : a_word w -> (match s with c :: _ => is_space c = true | [] => True end) -> words (w ++ s) = w :: words s.
Proof.
  intros [N F] Hs. destruct w as [|c w]; [easy|]. inversion F as [|? ? Hc Fw]; subst. cbn [app].
  destruct (LayersProofs.words_cons c (w ++ s) Hc) as (u & r & E & Eu & Fu & Hr). rewrite E.
  assert (X : u = w /\ r = s).
  { clear E N F. revert u Eu Fu. induction Fw as [|x w Hx Fw IH]; intros u Eu Fu.
    - destruct u as [|y u]; [auto|]. cbn in Eu. subst s. inversion Fu; subst. congruence.
    - destruct u as [|y u].
      + cbn in Eu. subst r. destruct Hr as [Hr|(d & r' & Hr & Hd)]; [discriminate|]. injection Hr as -> _. congruence.
      + injection Eu as <- Eu. inversion Fu; subst. destruct (IH u Eu) as [-> ->]; auto. }
  destruct X as [-> ->]. reflexivity.
Qed.
Lemma words_spaced ws : Forall a_word ws -> words (spaced ws) = ws.
Proof.
  induction 1 as [|w ws Hw Hws IH]; [reflexivity|]. destruct ws as [|w' ws]; [now apply words_word|].
  change (spaced (w :: w' :: ws)) with (w ++ T " " ++ spaced (w' :: ws)). rewrite words_app; auto; [|reflexivity].
  f_equal. cbn [T list_ascii_of_string app words]. exact IH.
Qed.
Lemma unwords_spaced ws : unwords ws = spaced ws.
Proof. induction ws as [|w ws IH]; [reflexivity|]. destruct ws as [|w' ws]; [reflexivity|]. change (w ++ " "%char :: unwords (w' :: ws) = w ++ " "%char :: spaced (w' :: ws)). now rewrite IH. Qed.

(** ** Reading a file of records that are not broken *)
Fixpoint run (ls : list text) (p : parser) : res parser :=
  match ls with [] => Ok p | l :: r => do p' <- parse_line l p; run r p' end.
Lemma run_app a b p : run (a ++ b) p = do p' <- run a p; run b p'.
Proof. revert p. induction a as [|l a IH]; intro p; [reflexivity|]. cbn [app run]. destruct (parse_line l p); [apply IH|reflexivity]. Qed.
Lemma parse_lines_run ls : Forall starts_record ls -> forall old p, old <> [] -> parse_lines old ls p = do p' <- parse_line old p; run ls p'.
Proof.
  induction 1 as [|l ls [_ (c & r & -> & Hc)] Hls IH]; intros old p No.
  - cbn [parse_lines run]. destruct (parse_line old p); reflexivity.
  - rewrite not_cont by auto. destruct (parse_line old p) as [p'|]; [|reflexivity]. cbn [bind run]. apply IH. discriminate.
Qed.
Lemma parse_raw_run ls : Forall starts_record ls -> parse_raw (file_of ls) = do p <- run ls init_parser; netlist_of p.
Proof.
  intro F. unfold parse_raw. rewrite splitlines_file by (eapply Forall_impl; [|exact F]; now intros a [? ?]).
  f_equal. inversion F as [|l r [_ (c & h & E & Hc)] Fr]; subst; [reflexivity|].
  cbn [parse_lines]. rewrite parse_lines_run by (auto; discriminate). reflexivity.
Qed.

Lemma teq_spec a b : Bool.reflect (a = b) (teq a b).
Proof. destruct (teq a b) eqn:E; constructor; [now apply teq_true|now apply teq_false]. Qed.
Lemma words_head s : forall n rest, words s = n :: rest -> exists b r, s = b ++ n ++ r /\ Forall (fun c => is_space c = true) b /\
    (r = [] \/ exists d r', r = d :: r' /\ is_space d = true).
Proof.
  induction s as [|c s IH]; intros n rest E; [discriminate|]. destruct (is_space c) eqn:Hc.
  - cbn [words] in E. rewrite Hc in E. destruct (IH _ _ E) as (b & r & -> & Fb & Hr). exists (c :: b), r. repeat split; auto.
  - destruct (LayersProofs.words_cons c s Hc) as (u & r & E' & -> & Fu & Hr). rewrite E' in E. injection E as <- <-.
    exists [], r. repeat split; auto.
Qed.
Lemma defines_words l n : (exists c t, l = "P"%char :: c :: t) -> (exists rest, words (skipn 2 l) = n :: rest) -> defines l n.
Proof.
  intros (c & t & ->) (rest & E). cbn [skipn] in E. destruct (words_head _ _ _ E) as (b & r & -> & Fb & Hr). exists c, b, r. auto.
Qed.
Lemma parse_line_keeps l p p' n : parse_line l p = Ok p' -> ~ defines l n -> lookup n (ip_names p') = lookup n (ip_names p).
Proof.
  intros H D. unfold parse_line in H. destruct l as [|c l]; [now apply ok_inj in H; subst|].
  destruct (ceq_spec c "C"%char) as [->|_]; [apply ok_inj in H; now subst|].
  destruct (ceq_spec c "P"%char) as [->|_].
  - unfold parameter_from_line in H. destruct (words (skipn 2 ("P"%char :: l))) as [|m r] eqn:E; [discriminate|].
    cbn [bind] in H. apply ok_inj in H. subst p'. cbn [ip_names]. destruct (is_nname m); [|reflexivity]. cbn [lookup].
    destruct (teq_spec m n) as [->|_]; [|reflexivity]. exfalso. apply D. apply defines_words; [|eauto].
    destruct l; [discriminate|]. eauto.
  - destruct (ceq c "9"%char); [apply ok_inj in H; now subst|].
    destruct (_ || _); [destruct (record_from_line _ _); [|discriminate]; apply ok_inj in H; now subst|].
    destruct (teq _ _); [destruct (conductor_from_line _ _); [|discriminate]; apply ok_inj in H; now subst|].
    destruct (teq _ _); [destruct (adjacency_from_line _); [|discriminate]; apply ok_inj in H; now subst|].
    destruct (teq _ _); [destruct (outline_from_line _ _); [|discriminate]; apply ok_inj in H; now subst|].
    apply ok_inj in H; now subst.
Qed.
Lemma parse_line_units l p p' : parse_line l p = Ok p' -> ~ defines l (T "UNITS") -> ip_set p' = ip_set p.
Proof.
  intros H D. unfold parse_line in H. destruct l as [|c l]; [now apply ok_inj in H; subst|].
  destruct (ceq_spec c "C"%char) as [->|_]; [apply ok_inj in H; now subst|].
  destruct (ceq_spec c "P"%char) as [->|_].
  - unfold parameter_from_line in H. destruct (words (skipn 2 ("P"%char :: l))) as [|m r] eqn:E; [discriminate|].
    cbn [bind] in H. apply ok_inj in H. subst p'. cbn [ip_set].
    destruct (teq_spec m (T "UNITS")) as [->|_]; [|reflexivity]. exfalso. apply D. apply defines_words; [|eauto].
    destruct l; [discriminate|]. eauto.
  - destruct (ceq c "9"%char); [apply ok_inj in H; now subst|].
    destruct (_ || _); [destruct (record_from_line _ _); [|discriminate]; apply ok_inj in H; now subst|].
    destruct (teq _ _); [destruct (conductor_from_line _ _); [|discriminate]; apply ok_inj in H; now subst|].
    destruct (teq _ _); [destruct (adjacency_from_line _); [|discriminate]; apply ok_inj in H; now subst|].
    destruct (teq _ _); [destruct (outline_from_line _ _); [|discriminate]; apply ok_inj in H; now subst|].
    apply ok_inj in H; now subst.
Qed.
Lemma run_keeps ls n : Forall (fun l => ~ defines l n) ls -> forall p p', run ls p = Ok p' -> lookup n (ip_names p') = lookup n (ip_names p).
Proof.
  induction 1 as [|l ls D F IH]; intros p p' H; cbn [run] in H; [now apply ok_inj in H; subst|].
  destruct (parse_line l p) as [q|] eqn:E; [|discriminate]. cbn [bind] in H. rewrite (IH _ _ H). eapply parse_line_keeps; eauto.
Qed.
Lemma run_units ls : Forall (fun l => ~ defines l (T "UNITS")) ls -> forall p p', run ls p = Ok p' -> ip_set p' = ip_set p.
Proof.
  induction 1 as [|l ls D F IH]; intros p p' H; cbn [run] in H; [now apply ok_inj in H; subst|].
  destruct (parse_line l p) as [q|] eqn:E; [|discriminate]. cbn [bind] in H. rewrite (IH _ _ H). eapply parse_line_units; eauto.
Qed.
Lemma parameter_words n ws : a_word n -> Forall a_word ws -> parameter_from_line (parameter_line n (spaced ws)) = Ok (n, spaced ws).
Proof.
  intros Hn Hw. unfold parameter_from_line, parameter_line. cbn [T list_ascii_of_string app skipn].
  change (words (" "%char :: n ++ " "%char :: spaced ws)) with (words (n ++ " "%char :: spaced ws)). rewrite words_app by (auto; reflexivity).
  change (words (" "%char :: spaced ws)) with (words (spaced ws)). rewrite words_spaced, unwords_spaced by auto. reflexivity.
Qed.
Lemma nname_variable n : is_nname n = true <-> variable n.
Proof.
  unfold is_nname, variable. split.
  - intro H. apply andb_prop in H as [H H3]. apply andb_prop in H as [H1 H2].
    destruct n as [|a [|b [|c [|d [|e r]]]]]; cbn in H1; try discriminate; repeat (apply andb_prop in H1 as [? H1]; try discriminate).
    all: try (rewrite andb_false_r in H1; discriminate).
    exists r. repeat match goal with H : ceq _ _ = true |- _ => apply ceq_true in H; subst end. cbn [skipn] in *.
    split; [|split]; auto. destruct r; [discriminate|easy].
  - intros (d & -> & N & D). change (skipn 5 (T "NNAME" ++ d)) with d. rewrite D. destruct d; [easy|reflexivity].
Qed.
Lemma variable_word n : variable n -> a_word n.
Proof.
  intros (d & -> & N & D). split; [discriminate|]. apply Forall_app. split; [repeat constructor|].
  rewrite Forall_forall. intros x Hx. apply digit_not_space. unfold all_digits in D. rewrite forallb_forall in D. auto.
Qed.

Lemma last_record ls wid c f nl0 : 
  Forall starts_record ls -> starts_record (record_line wid c) -> co_feature c = "1"%char \/ co_feature c = "2"%char \/ co_feature c = "6"%char ->
  feature_of (co_feature c) f -> fits_columns wid c -> dash_found wid c ->
  parse_raw (file_of (ls ++ [record_line wid c])) = Ok nl0 -> is_radians (n_set nl0) = false ->
  exists p, run ls init_parser = Ok p /\ ip_set p = n_set nl0 /\
    n_stmts nl0 = ip_stmts p ++ [ITest (rename (ip_names p) (the_record (n_set nl0) f c))].
Proof.
  intros F S Hf Ff Fc Df H R. rewrite parse_raw_run in H by (apply Forall_app; auto). rewrite run_app in H.
  destruct (run ls init_parser) as [p|] eqn:E; [|discriminate]. cbn [bind run] in H. exists p.
  assert (X : parse_line (record_line wid c) p = do r <- record_from_line (record_line wid c) (ip_set p); Ok (add (ITest (rename (ip_names p) r)) p)).
  { unfold parse_line, record_line. destruct Hf as [-> | [-> | ->]]; reflexivity. }
  rewrite X in H. destruct (record_from_line (record_line wid c) (ip_set p)) as [r|] eqn:Er; [|discriminate]. cbn [bind] in H.
  unfold netlist_of in H. destruct (mapM prim_of _); [|discriminate]. cbn [bind] in H. apply ok_inj in H. subst nl0. cbn [n_set n_stmts add ip_set ip_stmts] in *.
  rewrite C71_lemma with (f := f) in Er by auto. apply ok_inj in Er. subst r. auto.
Qed.
Lemma C72_names_lemma : forall pre n ws mid wid c f nl0,
  variable n -> Forall a_word ws -> Forall (fun l => ~ defines l n) mid -> co_net c = n ->
  Forall starts_record (pre ++ parameter_line n (spaced ws) :: mid) -> starts_record (record_line wid c) ->
  co_feature c = "1"%char \/ co_feature c = "2"%char \/ co_feature c = "6"%char ->
  feature_of (co_feature c) f -> fits_columns wid c -> dash_found wid c ->
  parse_raw (file_of ((pre ++ parameter_line n (spaced ws) :: mid) ++ [record_line wid c])) = Ok nl0 -> is_radians (n_set nl0) = false ->
  exists l, n_stmts nl0 = l ++ [ITest (set_net (spaced ws) (the_record (n_set nl0) f c))].
Proof.
  intros pre n ws mid wid c f nl0 V W M E F S Hf Ff Fc Df H R.
  destruct (last_record _ _ _ _ _ F S Hf Ff Fc Df H R) as (p & Hp & _ & ->). exists (ip_stmts p). repeat f_equal.
  rewrite run_app in Hp. destruct (run pre init_parser) as [q|]; [|discriminate]. cbn [bind run] in Hp.
  unfold parse_line in Hp at 1. unfold parameter_line in Hp. cbn [T list_ascii_of_string app] in Hp.
  change (ceq "P" "C") with false in Hp. change (ceq "P" "P") with true in Hp. cbn iota in Hp.
  change ("P"%char :: " "%char :: " "%char :: n ++ " "%char :: spaced ws) with (parameter_line n (spaced ws)) in Hp.
  rewrite parameter_words in Hp by (auto using variable_word). cbn [bind] in Hp.
  apply (run_keeps _ _ M) in Hp. cbn [ip_names] in Hp. apply nname_variable in V. rewrite V in Hp. cbn [lookup] in Hp. rewrite teq_refl in Hp.
  unfold rename, set_net. cbn [the_record tr_net]. rewrite E, V, Hp. reflexivity.
Qed.
Lemma C72_other_lemma : forall pre wid c f nl0,
  (~ variable (co_net c) \/ Forall (fun l => ~ defines l (co_net c)) pre) ->
  Forall starts_record pre -> starts_record (record_line wid c) ->
  co_feature c = "1"%char \/ co_feature c = "2"%char \/ co_feature c = "6"%char ->
  feature_of (co_feature c) f -> fits_columns wid c -> dash_found wid c ->
  parse_raw (file_of (pre ++ [record_line wid c])) = Ok nl0 -> is_radians (n_set nl0) = false ->
  exists l, n_stmts nl0 = l ++ [ITest (the_record (n_set nl0) f c)].
Proof.
  intros pre wid c f nl0 V F S Hf Ff Fc Df H R.
  destruct (last_record _ _ _ _ _ F S Hf Ff Fc Df H R) as (p & Hp & _ & ->). exists (ip_stmts p). repeat f_equal.
  unfold rename. cbn [the_record tr_net]. destruct (is_nname (co_net c)) eqn:En; [|reflexivity].
  destruct V as [V|V]; [exfalso; apply V; now apply nname_variable|]. apply (run_keeps _ _ V) in Hp. cbn [init_parser ip_names lookup] in Hp.
  rewrite Hp. reflexivity.
Qed.
Lemma C72_units_lemma : forall pre ws mid nl0,
  Forall a_word ws -> Forall (fun l => ~ defines l (T "UNITS")) mid ->
  Forall starts_record (pre ++ parameter_line (T "UNITS") (spaced ws) :: mid) ->
  parse_raw (file_of (pre ++ parameter_line (T "UNITS") (spaced ws) :: mid)) = Ok nl0 ->
  (ws = [T "CUST"] \/ ws = [T "CUST"; T "0"] -> is_metric (n_set nl0) = false /\ is_radians (n_set nl0) = false) /\
  (ws = [T "CUST"; T "1"] -> is_metric (n_set nl0) = true /\ is_radians (n_set nl0) = false) /\
  (ws = [T "CUST"; T "2"] -> is_metric (n_set nl0) = false /\ is_radians (n_set nl0) = true).
Proof.
  intros pre ws mid nl0 W M F H. rewrite parse_raw_run in H by auto. rewrite run_app in H.
  destruct (run pre init_parser) as [q|]; [|discriminate]. cbn [bind run] in H.
  unfold parse_line in H at 1. unfold parameter_line in H. cbn [T list_ascii_of_string app] in H.
  change (ceq "P" "C") with false in H. change (ceq "P" "P") with true in H. cbn iota in H.
  change ("P"%char :: " "%char :: " "%char :: "U"%char :: "N"%char :: "I"%char :: "T"%char :: "S"%char :: " "%char :: spaced ws) with (parameter_line (T "UNITS") (spaced ws)) in H.
  assert (AU : a_word (T "UNITS")) by (split; [discriminate|]; cbn; do 5 (constructor; [reflexivity|]); constructor).
  rewrite parameter_words in H by auto. cbn [bind] in H.
  match type of H with bind (run _ ?q') _ = _ => destruct (run mid q') as [p|] eqn:E; [|discriminate] end.
  cbn [bind] in H. apply (run_units _ M) in E. cbn [ip_set] in E.
  unfold netlist_of in H. destruct (mapM prim_of _); [|discriminate]. cbn [bind] in H. apply ok_inj in H. subst nl0. cbn [n_set]. rewrite E.
  split; [intros [-> | ->]; split; reflexivity|]. split; intros ->; split; reflexivity.
Qed.
Lemma C72_default_lemma : forall ls nl0, Forall (fun l => ~ defines l (T "UNITS")) ls -> Forall starts_record ls ->
  parse_raw (file_of ls) = Ok nl0 -> is_metric (n_set nl0) = false /\ is_radians (n_set nl0) = false.
Proof.
  intros ls nl0 M F H. rewrite parse_raw_run in H by auto. destruct (run ls init_parser) as [p|] eqn:E; [|discriminate].
  apply (run_units _ M) in E. cbn [bind] in H. unfold netlist_of in H. destruct (mapM prim_of _); [|discriminate]. cbn [bind] in H. apply ok_inj in H. subst nl0. cbn [n_set]. rewrite E.
  split; reflexivity.
Qed.

(** ** Coordinates *)
Definition half (l : ascii) (o : option text) : text := match o with Some d => l :: d | None => [] end.
Definition dok (o : option text) : Prop := match o with Some d => all_digits d = true | None => True end.
Lemma digits_dos d : all_digits d = true -> forallb digit_or_space d = true.
Proof. unfold all_digits. rewrite !forallb_forall. intros H c Hc. unfold digit_or_space. now rewrite (H _ Hc). Qed.
Lemma first_mark l o r : dok o -> match r with c :: _ => ceq l c = false | [] => True end ->
  is_digit l = false -> exists u, first (Opt (chr l)) (half l o ++ r) (u, [], dflt o ++ r).
Proof.
  intros D Hr Hl. destruct o as [d|]; cbn [half dflt app].
  - exists [l]. apply first_opt. unfold chr. apply first_cls. apply ceq_refl.
  - exists []. apply first_opt_skip. destruct r as [|c r]; [reflexivity|]. cbn [rm chr]. now rewrite Hr.
Qed.
Lemma coord_groups_ok ox oy : dok ox -> dok oy -> coord_groups (half "X"%char ox ++ half "Y"%char oy) = (dflt ox, dflt oy).
Proof.
  intros Dx Dy. assert (Hy : match half "Y"%char oy with c :: _ => ceq "X"%char c = false | [] => True end) by (destruct oy; cbn; auto).
  assert (Hy' : match half "Y"%char oy with c :: _ => digit_or_space c = false | [] => True end) by (destruct oy; cbn; auto).
  destruct (first_mark "X"%char ox (half "Y"%char oy) Dx Hy eq_refl) as [ux Fx].
  destruct (first_mark "Y"%char oy [] Dy I eq_refl) as [uy Fy]. rewrite !app_nil_r in Fy.
  assert (Gx : first (Opt (Grp (T "x") (Star digit_or_space))) (dflt ox ++ half "Y"%char oy) (dflt ox, [(T "x", dflt ox)], half "Y"%char oy)).
  { apply first_opt, first_grp, first_star; auto. destruct ox; [now apply digits_dos|reflexivity]. }
  assert (Gy : first (Opt (Grp (T "y") (Star digit_or_space))) (dflt oy) (dflt oy, [(T "y", dflt oy)], [])).
  { apply first_opt, first_grp. pose proof (first_star digit_or_space (dflt oy) []) as X. rewrite app_nil_r in X. apply X; auto.
    destruct oy; [now apply digits_dos|reflexivity]. }
  unfold coord_groups, coord_re.
  rewrite (first_match _ _ _ _ _ (first_seq _ _ _ _ _ _ _ _ _ Fx (first_seq _ _ _ _ _ _ _ _ _ Gx (first_seq _ _ _ _ _ _ _ _ _ Fy Gy)))).
  reflexivity.
Qed.
Lemma coord_text_half c : coord_text c = half "X"%char (option_map show_nat (fst c)) ++ half "Y"%char (option_map show_nat (snd c)).
Proof. destruct c as [[x|] [y|]]; reflexivity. Qed.
Lemma dok_show o : dok (option_map show_nat o).
Proof. destruct o; cbn; [apply show_nat_digits|exact I]. Qed.
Lemma coord_groups_text c : coord_groups (coord_text c) = (dflt (option_map show_nat (fst c)), dflt (option_map show_nat (snd c))).
Proof. rewrite coord_text_half. apply coord_groups_ok; apply dok_show. Qed.
Lemma int_show n : (0 <= n)%Z -> int_of (show_nat n) = Ok n.
Proof.
  intro H. unfold int_of. rewrite strip_keep by (apply digits_trimmed, show_nat_digits).
  rewrite py_int_digits by (auto using show_nat_nonempty, show_nat_digits). now rewrite dval_show_nat.
Qed.
Lemma coord_value_text o old : (match o with Some x => 0 <= x | None => True end)%Z ->
  coord_value (dflt (option_map show_nat o)) old = Ok (match o with Some x => x | None => old end).
Proof.
  destruct o as [x|]; [|reflexivity]. intro H. cbn [option_map dflt]. unfold coord_value. destruct (show_nat x) eqn:E; [now apply show_nat_nonempty in E|].
  rewrite <- E. now apply int_show.
Qed.
Lemma points_text se cs : Forall is_coord cs -> forall x y, points se x y (map coord_text cs) = Ok (map (in_units se) (path x y cs)).
Proof.
  induction 1 as [|[a b] cs (Ha & Hb & _) Hcs IH]; intros x y; [reflexivity|]. cbn [map points]. rewrite coord_groups_text. cbn [fst snd] in *.
  rewrite !coord_value_text by auto. cbn [bind]. rewrite IH. cbn [bind path map]. unfold in_units at 2. cbn [fst snd]. rewrite !scale_units. reflexivity.
Qed.
Lemma coord_chars c : Forall (fun x => is_digit x = true \/ x = "X"%char \/ x = "Y"%char) (coord_text c).
Proof.
  assert (D : forall n, Forall (fun x => is_digit x = true \/ x = "X"%char \/ x = "Y"%char) (show_nat n)).
  { intro n. rewrite Forall_forall. intros x Hx. left. pose proof (show_nat_digits n) as S. unfold all_digits in S. rewrite forallb_forall in S. auto. }
  destruct c as [[x|] [y|]]; unfold coord_text; cbn [fst snd T list_ascii_of_string app];
    repeat first [apply D | apply Forall_nil | apply Forall_cons; [now auto|] | apply Forall_app; split].
Qed.
Lemma coord_word c : is_coord c -> a_word (coord_text c).
Proof.
  intros (_ & _ & H). split.
  - destruct c as [[x|] [y|]]; cbn in *; try discriminate. destruct H; congruence.
  - eapply Forall_impl; [|apply coord_chars]. intros x [D | [-> | ->]]; [now apply digit_not_space|reflexivity|reflexivity].
Qed.
Lemma coord_no_star c : ~ In "*"%char (coord_text c).
Proof. intro H. pose proof (coord_chars c) as F. rewrite Forall_forall in F. destruct (F _ H) as [D | [D | D]]; discriminate. Qed.
Lemma coords_words cs : Forall is_coord cs -> Forall a_word (map coord_text cs).
Proof. induction 1; cbn [map]; constructor; auto using coord_word. Qed.
Lemma spaced_trimmed ws : Forall a_word ws -> trimmed (spaced ws).
Proof.
  intro F. split.
  - intros c r E. destruct F as [|w ws [N Fw] F]; [discriminate|]. destruct w as [|x w]; [easy|]. inversion Fw; subst.
    destruct ws; cbn [spaced app] in E; injection E as <- _; auto.
  - induction F as [|w ws [N Fw] F IH]; intros c r E; [destruct r; discriminate|]. destruct ws as [|w' ws].
    + cbn [spaced] in E. subst w. apply Forall_app in Fw. destruct Fw as [_ Fw]. now inversion Fw.
    + change (w ++ " "%char :: spaced (w' :: ws) = r ++ [c]) in E.
      assert (Z : spaced (w' :: ws) <> []). { inversion F as [|? ? [N' _] _]; subst. destruct w' as [|? w']; [easy|]. destruct ws; discriminate. }
      destruct (exists_last Z) as (s & d & Es). rewrite Es in E. rewrite app_comm_cons, app_assoc in E. apply app_inj_tail in E as [_ <-]. eapply IH. exact Es.
Qed.
Lemma words_lead b s : Forall (fun c => is_space c = true) b -> words (b ++ s) = words s.
Proof. induction 1 as [|c b Hc _ IH]; cbn; [reflexivity|]. now rewrite Hc. Qed.
Lemma spaces_forall n : Forall (fun c => is_space c = true) (repeat " "%char n).
Proof. induction n; cbn; auto. Qed.
Lemma lead_word a ty s : a_word a -> (ty = [] \/ a_word ty) -> 
  words (a ++ pad 14 ty ++ T " " ++ s) = (a ++ ty) :: words s.
Proof.
  intros [Na Fa] Ht. unfold pad. rewrite !app_assoc. rewrite <- (app_assoc (a ++ ty)), <- app_assoc. rewrite words_app.
  - f_equal. rewrite <- app_assoc, words_lead by apply spaces_forall. reflexivity.
  - split; [destruct a; [easy|discriminate]|]. apply Forall_app. split; auto. destruct Ht as [-> | [_ Ht]]; auto.
  - destruct (repeat " "%char (14 - List.length ty)) as [|x r] eqn:E; [reflexivity|]. 
    pose proof (spaces_forall (14 - List.length ty)) as S. rewrite E in S. cbn. now inversion S.
Qed.
Lemma word_trimmed t : t = [] \/ a_word t -> trimmed t.
Proof.
  intros [-> | [N F]]; [split; intros c r E; [discriminate|destruct r; discriminate]|]. split; intros c r ->.
  - now inversion F. - apply Forall_app in F. destruct F as [_ F]. now inversion F.
Qed.
Lemma strip_trail s b : trimmed s -> forallb is_space b = true -> strip (s ++ b) = s.
Proof. intros H Hb. unfold strip, strip_p. destruct s as [|c s]; [cbn [app]|].
  - rewrite lstrip_all by auto. reflexivity.
  - rewrite lstrip_p_keep. + rewrite rstrip_p_app by auto. rewrite rstrip_p_keep; [reflexivity|]. intros r d E. destruct H as [_ H]. eauto.
    + intros d r E. cbn [app] in E. injection E as <- _. destruct H as [H _]. eauto.
Qed.

Lemma C73_outline_lemma : forall se ty cs, Forall is_coord cs -> ty = [] \/ a_word ty -> List.length ty <= 14 ->
  outline_from_line (outline_line ty cs) se = Ok (mkOutline ty (map (in_units se) (path 0 0 cs))).
Proof.
  intros se ty cs F Ht L. unfold outline_from_line.
  assert (Ea : a_word (T "389")) by (split; [discriminate|]; cbn; do 3 (constructor; [reflexivity|]); constructor).
  assert (E : words (strip (outline_line ty cs)) = (T "389" ++ ty) :: map coord_text cs).
  { unfold outline_line. destruct F as [|c cs Hc F].
    - cbn [map spaced]. rewrite app_nil_r. unfold pad. rewrite <- app_assoc. rewrite app_assoc. rewrite strip_trail.
      + apply words_word. split; [destruct ty; discriminate|]. destruct Ea as [_ Ea]. apply Forall_app. split; auto. destruct Ht as [-> | [_ ?]]; auto.
      + apply word_trimmed. right. split; [destruct ty; discriminate|]. destruct Ea as [_ Ea]. apply Forall_app. split; auto. destruct Ht as [-> | [_ ?]]; auto.
      + rewrite forallb_app, spaces_blank. reflexivity.
    - assert (W : Forall a_word (map coord_text (c :: cs))) by (apply coords_words; auto).
      rewrite strip_keep.
      + rewrite lead_word by auto. now rewrite words_spaced.
      + destruct (spaced_trimmed _ W) as [_ B]. split.
        * intros x r E. injection E as <- _. reflexivity.
        * intros x r E. assert (Z : spaced (map coord_text (c :: cs)) <> []).
          { inversion W as [|? ? [N _] _]; subst. cbn [map]. destruct (coord_text c); [easy|]. destruct (map coord_text cs); discriminate. }
          destruct (exists_last Z) as (s & d & Es). rewrite Es in E. rewrite !app_assoc in E. apply app_inj_tail in E as [_ <-]. eapply B, Es. }
  rewrite E. cbn [skipn]. rewrite points_text by auto. cbn [bind]. repeat f_equal.
  unfold outline_line. rewrite <- (strip_pad 14 ty) at 2 by (now apply word_trimmed). f_equal.
  pose proof (cut_at [T "389"; pad 14 ty; T " " ++ spaced (map coord_text cs)] 1 3 17 eq_refl) as X. cbn [nth List.concat] in X. rewrite app_nil_r in X.
  apply X. now rewrite pad_length.
Qed.

Lemma spaced_cons w ws : ws <> [] -> spaced (w :: ws) = w ++ T " " ++ spaced ws.
Proof. destruct ws; [easy|reflexivity]. Qed.
Lemma glue a b : Forall a_word a -> Forall a_word b -> a <> [] -> b <> [] ->
  exists c, Forall a_word c /\ c <> [] /\ spaced c = spaced a ++ T "*" ++ spaced b.
Proof.
  intros Fa Fb Na Nb. induction Fa as [|w a [Nw Fw] Fa IH]; [easy|]. destruct a as [|w' a].
  - destruct Fb as [|v b [Nv Fv] Fb]; [easy|]. exists ((w ++ T "*" ++ v) :: b). split; [|split; [discriminate|]].
    + constructor; auto. split; [destruct w; discriminate|]. apply Forall_app. split; auto. constructor; auto.
    + destruct b; [reflexivity|]. rewrite !spaced_cons by discriminate. rewrite <- !app_assoc. reflexivity.
  - destruct IH as (c & Fc & Nc & Ec); [discriminate|]. exists (w :: c). split; [constructor; [now split|auto]|]. split; [discriminate|].
    rewrite !spaced_cons by (auto; discriminate). rewrite Ec, <- !app_assoc. reflexivity.
Qed.
Lemma starred_words l : l <> [] -> Forall (fun ws => ws <> [] /\ Forall a_word ws) l ->
  exists c, Forall a_word c /\ c <> [] /\ spaced c = starred (map spaced l).
Proof.
  intros N F. induction F as [|ws l [Nw Fw] F IH]; [easy|]. destruct l as [|v l].
  - exists ws. auto.
  - destruct IH as (c & Fc & Nc & Ec); [discriminate|]. destruct (glue ws c Fw Fc Nw Nc) as (d & Fd & Nd & Ed). exists d. repeat split; auto.
    rewrite Ed, Ec. reflexivity.
Qed.
Lemma split_star s : ~ In "*"%char s -> split_on "*"%char s = [s].
Proof.
  induction s as [|x s IH]; intro H; [reflexivity|]. cbn [split_on]. rewrite IH by (intro; apply H; now right).
  destruct (ceq_spec x "*"%char) as [->|_]; [exfalso; apply H; now left|reflexivity].
Qed.
Lemma split_starred l : l <> [] -> Forall (fun s => ~ In "*"%char s) l -> split_on "*"%char (starred l) = l.
Proof.
  intros N F. induction F as [|s l Hs F IH]; [easy|]. destruct l as [|v l]; [now apply split_star|].
  change (starred (s :: v :: l)) with (s ++ "*"%char :: starred (v :: l)). rewrite MacroProofs.split_on_app by auto. f_equal. apply IH. discriminate.
Qed.
Lemma spaced_no_star ws : Forall (fun w => ~ In "*"%char w) ws -> ~ In "*"%char (spaced ws).
Proof.
  induction 1 as [|w ws H F IH]; [easy|]. destruct ws as [|v ws]; [exact H|]. rewrite spaced_cons by discriminate. rewrite !in_app_iff.
  intros [X | [[X|[]] | X]]; [auto|discriminate|auto].
Qed.
Lemma skipn_at l : forall k a, a = before k l -> skipn a (List.concat l) = List.concat (skipn k l).
Proof.
  induction l as [|s l IH]; intros k a ->; destruct k; try reflexivity. unfold before. cbn [firstn map list_sum fold_right List.concat skipn].
  change (fold_right Nat.add 0 (map (@List.length ascii) (firstn k l))) with (before k l). rewrite skipn_app, skipn_all2 by lia.
  cbn [app]. replace (List.length s + before k l - List.length s) with (before k l) by lia. now apply IH.
Qed.
Lemma ap_value_text se o : (match o with Some x => 0 <= x | None => True end)%Z ->
  ap_value se (dflt (option_map show_nat o)) = Ok (option_map (units se) o).
Proof.
  destruct o as [x|]; [|reflexivity]. intro H. cbn [option_map dflt]. unfold ap_value. destruct (show_nat x) eqn:E; [now apply show_nat_nonempty in E|].
  rewrite <- E. rewrite int_show by auto. cbn [bind]. now rewrite scale_units.
Qed.
Lemma shapes_points se shapes : Forall (fun s => s <> [] /\ Forall is_coord s) shapes ->
  mapM (fun s => points se 0 0 (words s)) (map (fun s => spaced (map coord_text s)) shapes) =
  Ok (map (fun s => map (in_units se) (path 0 0 s)) shapes).
Proof.
  induction 1 as [|s l [_ Fs] F IH]; [reflexivity|]. cbn [map mapM]. rewrite words_spaced by (now apply coords_words).
  rewrite points_text by auto. cbn [bind]. rewrite IH. reflexivity.
Qed.

Lemma C73_conductor_lemma : forall se net layer ap shapes,
  trimmed net -> List.length net <= 14 -> (0 <= layer < 100)%Z -> is_coord ap -> shapes <> [] -> Forall (fun s => s <> [] /\ Forall is_coord s) shapes ->
  conductor_from_line (conductor_line net layer ap shapes) se =
  Ok (mkConductor net layer (option_map (units se) (fst ap), option_map (units se) (snd ap))
        (map (fun s => map (in_units se) (path 0 0 s)) shapes)).
Proof.
  intros se net layer ap shapes Tn Ln Hl Ha N F. unfold conductor_from_line.
  set (tail := coord_text ap ++ T " " ++ starred (map (fun s => spaced (map coord_text s)) shapes)).
  assert (E : conductor_line net layer ap shapes = List.concat [T "378"; pad 14 net; T " L"; dig 2 layer; T " "; tail]).
  { unfold conductor_line, tail. cbn [List.concat]. rewrite app_nil_r. reflexivity. }
  rewrite E. rewrite (cut_at _ 3 19 21).
  2:{ unfold before. cbn [firstn map list_sum fold_right]. rewrite pad_length by auto. reflexivity. }
  2:{ cbn [nth]. now rewrite dig_length. }
  cbn [nth]. rewrite int_dig by (auto; cbn; lia). cbn [bind].
  rewrite (skipn_at _ 5 22).
  2:{ unfold before. cbn [firstn map list_sum fold_right]. rewrite pad_length, dig_length by auto. reflexivity. }
  rewrite (cut_at _ 1 3 17).
  2:{ reflexivity. }
  2:{ cbn [nth]. now rewrite pad_length. }
  cbn [nth skipn List.concat]. rewrite app_nil_r. rewrite strip_pad by auto. unfold tail.
  rewrite words_app by (auto using coord_word; reflexivity).
  change (words (T " " ++ starred (map (fun s => spaced (map coord_text s)) shapes))) with (words (starred (map (fun s => spaced (map coord_text s)) shapes))).
  rewrite coord_groups_text. cbn [fst snd] in *. destruct Ha as (Hx & Hy & _). rewrite !ap_value_text by auto. cbn [bind].
  assert (FW : Forall (fun ws => ws <> [] /\ Forall a_word ws) (map (map coord_text) shapes)).
  { clear - F. induction F as [|s l [Ns Fs] F IH]; cbn [map]; constructor; auto. split; [destruct s; [easy|discriminate]|now apply coords_words]. }
  destruct (starred_words (map (map coord_text) shapes)) as (c & Fc & Nc & Ec); [destruct shapes; [easy|discriminate]|exact FW|].
  rewrite map_map in Ec. rewrite <- Ec. rewrite words_spaced, unwords_spaced, Ec by auto.
  rewrite split_starred.
  - rewrite shapes_points by auto. reflexivity.
  - destruct shapes; [easy|discriminate].
  - clear. induction shapes as [|s l IH]; cbn [map]; constructor; auto. apply spaced_no_star. clear.
    induction s; cbn [map]; constructor; auto using coord_no_star.
Qed.

(** A negative coordinate is read as if it were not there. *)
Lemma C73_refuted_lemma : exists se a b,
  (forall w, In w [a; b] -> a_word w) /\ a = T "X-100Y0" /\ b = T "X100Y0" /\
  outline_from_line (T "389" ++ pad 14 (T "BOARD_EDGE") ++ T " " ++ spaced [a; b]) se =
    Ok (mkOutline (T "BOARD_EDGE") (map (in_units se) [(0, 0); (100, 0)]%Z)) /\
  ~ (exists o, outline_from_line (T "389" ++ pad 14 (T "BOARD_EDGE") ++ T " " ++ spaced [a; b]) se = Ok o /\
       ol_points o = map (in_units se) [(-100, 0); (100, 0)]%Z).
Proof.
  exists (mkIS false false), (T "X-100Y0"), (T "X100Y0"). 
  assert (E : outline_from_line (T "389" ++ pad 14 (T "BOARD_EDGE") ++ T " " ++ spaced [T "X-100Y0"; T "X100Y0"]) (mkIS false false) =
    Ok (mkOutline (T "BOARD_EDGE") (map (in_units (mkIS false false)) [(0, 0); (100, 0)]%Z))).
  { vm_compute. reflexivity. }
  split; [|split; [reflexivity|split; [reflexivity|split; [exact E|]]]].
  - intros w [<- | [<- | []]]; (split; [discriminate|]); cbn; repeat (apply Forall_cons; [reflexivity|]); apply Forall_nil.
  - intros (o & H & P). rewrite E in H. apply ok_inj in H. subst o. cbn [ol_points map] in P. injection P as P. vm_compute in P. discriminate.
Qed.

(** ** Components and sides *)
Lemma shown_visible l a : shown l a = true <-> visible l a.
Proof. destruct l, a; cbn; intuition congruence. Qed.
Lemma mapM_in {A B} (f : A -> res B) l : forall r, mapM f l = Ok r -> forall y, In y r <-> exists x, In x l /\ f x = Ok y.
Proof.
  induction l as [|a l IH]; intros r H y; cbn [mapM] in H.
  - apply ok_inj in H. subst r. split; [intros []|intros (x & [] & _)].
  - destruct (f a) as [b|] eqn:E; [|discriminate]. cbn [bind] in H. destruct (mapM f l) as [q|] eqn:Eq; [|discriminate]. cbn [bind] in H.
    apply ok_inj in H. subst r. cbn [In]. rewrite (IH _ eq_refl). split.
    + intros [<- | (x & Hx & Ex)]; [exists a; auto|exists x; auto].
    + intros (x & [-> | Hx] & Ex); [left; congruence|right; eauto].
Qed.
Lemma C74_render_lemma : forall data nl0 side x y net a, parse_raw data = Ok nl0 ->
  (In ((x, y), net, a) (render side nl0) <->
   exists r, In (ITest r) (n_stmts nl0) /\ tr_x r = Some x /\ tr_y r = Some y /\ tr_net r = net /\ tr_access r = Some a /\ visible side a).
Proof.
  intros data nl0 side x y net a H. unfold parse_raw in H. destruct (parse_lines _ _ _) as [p|]; [|discriminate]. cbn [bind] in H.
  unfold netlist_of in H. destruct (mapM prim_of _) as [ps|] eqn:E; [|discriminate]. cbn [bind] in H. apply ok_inj in H. subst nl0.
  unfold render. cbn [n_prims n_stmts]. rewrite filter_In. rewrite (mapM_in _ _ _ E). cbn [snd]. rewrite shown_visible. split.
  - intros [(r & Hr & Er) V]. exists r. rewrite <- in_records. unfold prim_of in Er. destruct (tr_x r), (tr_y r), (tr_access r); try discriminate.
    apply ok_inj in Er. inversion Er; subst. auto 10.
  - intros (r & Hr & Ex & Ey & En & Ea & V). split; auto. exists r. rewrite in_records. split; auto. unfold prim_of. rewrite Ex, Ey, Ea, En. reflexivity.
Qed.
Lemma C74_components_lemma : forall l, NoDup (components l) /\
  (forall i, In i (components l) <-> i <> T "VIA" /\ exists r, In (ITest r) l /\ tr_id r = i).
Proof.
  intro l. unfold components. split; [apply to_set_nodup|]. intro i. rewrite to_set_in, filter_In, in_map_iff. rewrite negb_true_iff, teq_false. split.
  - intros [(r & <- & Hr) N]. split; auto. exists r. now rewrite <- in_records.
  - intros [N (r & Hr & <-)]. split; auto. exists r. now rewrite in_records.
Qed.
Lemma C74_vias_lemma : forall l, List.length (vias l) =
  list_sum (map (fun s => match s with ITest r => if list_eq_dec ascii_dec (tr_id r) (T "VIA") then 1 else 0 | _ => 0 end) l).
Proof.
  induction l as [|s l IH]; [reflexivity|]. unfold vias in *. cbn [test_records flat_map map list_sum fold_right]. 
  change (fold_right Nat.add 0 ?x) with (list_sum x). rewrite <- IH. fold (test_records l). destruct s; try reflexivity.
  cbn [app map filter]. destruct (list_eq_dec ascii_dec (tr_id r) (T "VIA")) as [E|E].
  - rewrite E, teq_refl. reflexivity.
  - apply teq_false in E. rewrite E. reflexivity.
Qed.
Lemma C56_refuted_lemma' : ~ nets_claim /\
  (exists l ns n b, nets l = Ok ns /\ In (n, []) ns /\ declared l n b) /\
  (exists l, nets l = Err AttributeError).
Proof.
  split; [|exact C56_refuted_lemma]. intro H. destruct C56_refuted_lemma as [(l & ns & n & b & E & I & D) _].
  destruct (H l) as (ns' & E' & _ & _ & X). rewrite E in E'. apply ok_inj in E'. subst ns'. now apply (X _ _ I b) in D.
Qed.
