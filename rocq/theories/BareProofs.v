(** Lemmas about macros made from shapes. *)
From Coq Require Import Lqa.
From Verif Require Import PyBase QcLib NumModel NumSpec NumProofs FmtModel FloatCodec MacroModel MacroSpec MacroProofs GerberText GerberEval
  AmModel AmSpec AmProofs AmWrite WriterModel AmRenderModel BareModel BareSpec.
Open Scope Qc_scope.
Open Scope list_scope.

(** ** Line feeds after commas do not matter *)
Fixpoint tidy (comma : bool) (s : text) : bool :=
  match s with
  | [] => true
  | c :: r => (if ceq c nl then comma else true) && tidy (ceq c ","%char) r
  end.
Lemma nonl_cons c s : ceq c nl = false -> nonl (c :: s) = c :: nonl s.
Proof. intros H. cbn [nonl filter]. rewrite H. reflexivity. Qed.
Lemma span_digits_nonl s : tidy false s = true -> forall a r, span_digits s = (a, r) -> span_digits (nonl s) = (a, nonl r) /\ tidy false r = true.
Proof.
  induction s as [|c s IH]; intros TI a r E; [injection E as <- <-; split; reflexivity|].
  cbn [tidy] in TI. destruct (ceq c nl) eqn:N; [discriminate TI|]. cbn [andb] in TI. cbn [span_digits] in *. rewrite (nonl_cons c s N). cbn [span_digits].
  destruct (is_digit c) eqn:D.
  - destruct (span_digits s) as [a' r'] eqn:S. injection E as <- <-.
    assert (C : ceq c ","%char = false) by (destruct (ceq_spec c ","%char) as [->|]; [discriminate D|reflexivity]). rewrite C in TI.
    destruct (IH TI a' r' eq_refl) as [-> K]. split; [reflexivity|exact K].
  - injection E as <- <-. rewrite (nonl_cons c s N). split; [reflexivity|]. cbn [tidy]. now rewrite N, TI.
Qed.
Lemma span_num_nonl s : tidy false s = true -> forall a r, span_num s = (a, r) -> span_num (nonl s) = (a, nonl r) /\ tidy false r = true.
Proof.
  induction s as [|c s IH]; intros TI a r E; [injection E as <- <-; split; reflexivity|].
  cbn [tidy] in TI. destruct (ceq c nl) eqn:N; [discriminate TI|]. cbn [andb] in TI. cbn [span_num] in *. rewrite (nonl_cons c s N). cbn [span_num].
  destruct (is_digit c || ceq c "."%char) eqn:D.
  - destruct (span_num s) as [a' r'] eqn:S. injection E as <- <-.
    assert (C : ceq c ","%char = false) by (destruct (ceq_spec c ","%char) as [->|]; [discriminate D|reflexivity]). rewrite C in TI.
    destruct (IH TI a' r' eq_refl) as [-> K]. split; [reflexivity|exact K].
  - injection E as <- <-. rewrite (nonl_cons c s N). split; [reflexivity|]. cbn [tidy]. now rewrite N, TI.
Qed.
Lemma tidy_weak k s : tidy false s = true -> tidy k s = true.
Proof. destruct s as [|c s]; [reflexivity|]. cbn [tidy]. destruct (ceq c nl); [discriminate|auto]. Qed.
(** One step. *)
Lemma step_nonl q b c r : b_code_found b = true -> ceq c nl = false -> tidy (ceq c ","%char) r = true ->
  match step q b c r with
  | Ok (b', r') => step q b c (nonl r) = Ok (b', nonl r') /\ b_code_found b' = true /\ tidy (ceq c ","%char) r' = true
  | Err e => step q b c (nonl r) = Err e
  end.
Proof.
  intros F N TI. unfold step.
  destruct (ceq c ","%char) eqn:C1; [split; [reflexivity|split; [reflexivity|exact TI]]|].
  destruct (is_op c); [destruct (ceq c "-"%char && b_uma b); [|destruct (pop_higher c (b_ops b))]; (split; [reflexivity|split; [exact F|exact TI]])|].
  destruct (ceq c "("%char); [split; [reflexivity|split; [exact F|exact TI]]|].
  destruct (ceq c ")"%char); [destruct (pop_paren (b_ops b)) as [p [|x l]]; [reflexivity|split; [reflexivity|split; [exact F|exact TI]]]|].
  destruct (ceq c "$"%char).
  { unfold readint. destruct (span_digits r) as [a r1] eqn:E. destruct (span_digits_nonl r TI a r1 E) as [-> K].
    destruct a as [|x a]; [reflexivity|]. cbn [bind]. destruct (q && negb (b_lhs_found b)); (split; [reflexivity|split; [exact F|exact K]]). }
  destruct (ceq c "="%char); [split; [reflexivity|split; [exact F|exact TI]]|].
  rewrite F. cbn [negb]. rewrite Bool.andb_false_r.
  destruct (ceq c "0"%char).
  { destruct r as [|d r]; [split; [reflexivity|split; [exact F|reflexivity]]|].
    pose proof TI as TI'. cbn [tidy] in TI'. destruct (ceq d nl) eqn:Nd; [discriminate TI'|]. rewrite (nonl_cons d r Nd).
    destruct (ceq d "."%char); (split; [now rewrite (nonl_cons d r Nd)|split; [exact F|exact TI]]). }
  destruct (is_digit c || ceq c "."%char) eqn:D; [|split; [reflexivity|split; [exact F|exact TI]]].
  assert (TI2 : tidy false (c :: r) = true) by (cbn [tidy]; now rewrite N, C1, TI).
  unfold readfloat. destruct (span_num (c :: r)) as [a r1] eqn:E. destruct (span_num_nonl (c :: r) TI2 a r1 E) as [E2 K].
  rewrite (nonl_cons c r N) in E2. rewrite E2. destruct (teq a (T ".")).
  - cbn [bind]. destruct (b_um b); (split; [reflexivity|split; [exact F|exact K]]).
  - destruct (py_float a) as [v|]; cbn [bind]; [|reflexivity]. destruct (b_um b); (split; [reflexivity|split; [exact F|exact K]]).
Qed.
Lemma run_nonl q : forall n k b s, (List.length s <= n)%nat -> b_code_found b = true -> tidy k s = true -> run q b s = run q b (nonl s).
Proof.
  induction n as [|n IH]; intros k b s L F TI.
  - destruct s; [reflexivity|cbn in L; lia].
  - destruct s as [|c r]; [reflexivity|]. cbn [List.length] in L. destruct (ceq c nl) eqn:N.
    + apply ceq_true in N. subst c. cbn [tidy] in TI. change (ceq nl nl) with true in TI. cbv iota in TI. apply andb_prop in TI as [_ TI].
      change (nonl (nl :: r)) with (nonl r). rewrite run_cons. change (step q b nl r) with (Ok (b, r)). cbn [bind]. apply (IH (ceq nl ","%char)); auto. lia.
    + cbn [tidy] in TI. rewrite N in TI. cbn [andb] in TI. rewrite (nonl_cons c r N), !run_cons.
      pose proof (step_nonl q b c r F N TI) as S. destruct (step q b c r) as [[b' r']|e] eqn:E.
      * destruct S as (-> & F' & TI'). cbn [bind]. apply (IH (ceq c ","%char)); auto. apply step_shrinks in E. lia.
      * rewrite S. reflexivity.
Qed.

(** A block with a code and modifiers. *)
Definition line_char (c : ascii) : bool := gc c || ceq c nl.
Lemma line_char_not c : line_char c = true -> ceq c "="%char = false /\ ceq c "*"%char = false.
Proof. destruct c as [[] [] [] [] [] [] [] []]; cbv; intros H; (discriminate H || (split; reflexivity)). Qed.
Lemma char_in_nonl x s : ceq x nl = false -> char_in x (nonl s) = char_in x s.
Proof.
  intros N. unfold char_in. induction s as [|c s IH]; [reflexivity|]. cbn [nonl filter existsb]. destruct (ceq_spec c nl) as [->|M].
  - cbn [negb]. fold (nonl s). rewrite IH. now rewrite N.
  - cbn [negb existsb]. fold (nonl s). now rewrite IH.
Qed.
Lemma line_no_eq t : forallb line_char t = true -> char_in "="%char t = false.
Proof.
  intros H. unfold char_in. induction t as [|c t IH]; [reflexivity|]. cbn [forallb existsb] in *. apply andb_prop in H as [A B].
  destruct (line_char_not c A) as [X _]. rewrite IH by exact B. destruct (ceq_spec "="%char c) as [<-|]; [discriminate X|reflexivity].
Qed.
Lemma block_nonl c r : (1 <= c)%Z -> forallb line_char r = true -> tidy true r = true ->
  read_block (show_nat c ++ "," %char :: r) = read_block (nonl (show_nat c ++ ","%char :: r)).
Proof.
  intros Hc L TI. unfold read_block. rewrite char_in_nonl by reflexivity.
  assert (Q : char_in "="%char (show_nat c ++ "," %char :: r) = false).
  { apply line_no_eq. rewrite forallb_app. cbn [forallb]. rewrite L, (forallb_impl gc line_char (show_nat c)); [reflexivity| |apply nat_gc].
    intros x H. unfold line_char. now rewrite H. }
  rewrite Q. 
  change (loop (S (List.length (show_nat c ++ ","%char :: r))) false b_init (show_nat c ++ ","%char :: r)) with (run false b_init (show_nat c ++ ","%char :: r)).
  change (loop (S (List.length (nonl (show_nat c ++ ","%char :: r)))) false b_init (nonl (show_nat c ++ ","%char :: r))) with (run false b_init (nonl (show_nat c ++ ","%char :: r))).
  enough (E : run false b_init (show_nat c ++ ","%char :: r) = run false b_init (nonl (show_nat c ++ ","%char :: r))) by now rewrite E.
  rewrite nonl_app. rewrite (nonl_gc (show_nat c)) by apply nat_gc. rewrite (nonl_cons ","%char r eq_refl).
  destruct (show_nat_head c ltac:(lia)) as (d & t & Ed & Dd & N0).
  assert (S1 : forall u, step false b_init d (t ++ ","%char :: u) = Ok (with_code c b_init, ","%char :: u)).
  { intros u. unfold step.
    assert (D : forall x, is_digit x = false -> ceq d x = false) by (intros x X; destruct (ceq_spec d x) as [->|]; [congruence|reflexivity]).
    rewrite !D by reflexivity. destruct (is_op d) eqn:O; [exfalso; unfold is_op in O; rewrite !D in O by reflexivity; discriminate O|].
    assert (Z0 : ceq d "0"%char = false) by (destruct (ceq_spec d "0"%char) as [->|]; [congruence|reflexivity]). rewrite Z0, Dd. cbn [orb negb andb b_init b_code_found].
    rewrite app_comm_cons, <- Ed, readint_show; [reflexivity|lia|]. split; [reflexivity|discriminate]. }
  rewrite Ed. cbn [app]. rewrite !run_cons, !S1. cbn [bind]. rewrite !run_cons, !step_comma. cbn [bind]. now apply (run_nonl _ (List.length r) true).
Qed.

(** The text of a primitive is such a block. *)
Lemma gc_line t : forallb gc t = true -> forallb line_char t = true.
Proof. apply forallb_impl. intros x H. unfold line_char. now rewrite H. Qed.
Lemma gc_tidy k t : forallb gc t = true -> tidy k t = true.
Proof.
  revert k. induction t as [|c t IH]; intros k; [reflexivity|]. cbn [forallb tidy]. intros H. apply andb_prop in H as [A B].
  destruct (ceq_spec c nl) as [->|]; [discriminate A|]. cbn [andb]. now apply IH.
Qed.
Lemma tidy_app k a b : tidy k a = true -> tidy false b = true -> tidy k (a ++ b) = true.
Proof.
  revert k. induction a as [|c a IH]; intros k; cbn [app tidy]; [intros _; apply tidy_weak|]. intros H B. apply andb_prop in H as [-> H]. cbn [andb]. now apply IH.
Qed.
Definition field (t : text) : Prop := forallb line_char t = true /\ tidy false t = true.
Lemma gc_field t : forallb gc t = true -> field t.
Proof. intros H. split; [now apply gc_line|now apply gc_tidy]. Qed.
Lemma commas_field ts : Forall field ts -> field (commas ts).
Proof.
  induction 1 as [|t ts [A B] _ [IH1 IH2]]; [split; reflexivity|]. unfold commas in *. cbn [map List.concat]. split.
  - rewrite !forallb_app, A, IH1. reflexivity.
  - change (T "," ++ t) with (","%char :: t). cbn [app tidy]. change (ceq "," nl) with false. change (ceq "," ",") with true. cbn [andb]. apply tidy_app; [now apply tidy_weak|exact IH2].
Qed.
Lemma points_field l : Forall (fun t => forallb gc t = true) l -> field (join (T "," ++ [nl]) l).
Proof.
  induction 1 as [|t [|u l] A B [IH1 IH2]]; [split; reflexivity|now apply gc_field|].
  change (join (T "," ++ [nl]) (t :: u :: l)) with (t ++ (T "," ++ [nl]) ++ join (T "," ++ [nl]) (u :: l)). split.
  - rewrite !forallb_app, IH1, (gc_line t A). reflexivity.
  - apply tidy_app; [now apply gc_tidy|]. change ((T "," ++ [nl]) ++ join (T "," ++ [nl]) (u :: l)) with (","%char :: nl :: join (T "," ++ [nl]) (u :: l)).
    cbn [tidy]. change (ceq "," nl) with false. change (ceq "," ",") with true. change (ceq nl nl) with true. change (ceq nl ",") with false. cbn [andb]. exact IH2.
Qed.
Lemma prim_fields p : prim_writable p -> exists c t ts, (1 <= c)%Z /\ prim_to_gerber p = fields (show_nat c :: t :: ts) /\ Forall field (t :: ts).
Proof.
  destruct p as [cm|on d q|code on w a b r|on s l r|on n q d r|q d th g n ct cl r|q o i g r|on w h q r|on w h q r|t]; cbn [prim_writable]; try contradiction; intros W.
  - exists 1%Z. eexists _, _. split; [lia|]. split; [reflexivity|]. repeat (apply Forall_cons || apply Forall_nil); apply gc_field; first [apply repr_gc|apply expo_gc].
  - exists code. eexists _, _. destruct W as ([->| ->] & _); (split; [lia|]; split; [reflexivity|]; repeat (apply Forall_cons || apply Forall_nil); apply gc_field; first [apply repr_gc|apply expo_gc]).
  - exists 4%Z. eexists _, _. split; [lia|]. split; [reflexivity|]. repeat (apply Forall_cons || apply Forall_nil); try (apply gc_field; first [apply repr_gc|apply expo_gc|apply nat_gc|apply pt_gc; lia]).
    apply points_field, Forall_map, Forall_forall. intros z _. apply pt_gc. lia.
  - exists 5%Z. eexists _, _. split; [lia|]. split; [reflexivity|]. repeat (apply Forall_cons || apply Forall_nil); apply gc_field; first [apply repr_gc|apply expo_gc|apply int_gc|apply pt_gc; lia|apply fmt_gc; lia].
  - exists 6%Z. eexists _, _. split; [lia|]. split; [reflexivity|]. repeat (apply Forall_cons || apply Forall_nil); apply gc_field; first [apply repr_gc|apply expo_gc|apply int_gc|apply pt_gc; lia|apply fmt_gc; lia].
  - exists 7%Z. eexists _, _. split; [lia|]. split; [reflexivity|]. repeat (apply Forall_cons || apply Forall_nil); apply gc_field; first [apply repr_gc|apply expo_gc|apply int_gc|apply pt_gc; lia|apply fmt_gc; lia].
  - exists 21%Z. eexists _, _. split; [lia|]. split; [reflexivity|]. repeat (apply Forall_cons || apply Forall_nil); apply gc_field; first [apply repr_gc|apply expo_gc|apply int_gc|apply pt_gc; lia|apply fmt_gc; lia].
  - exists 22%Z. eexists _, _. split; [lia|]. split; [reflexivity|]. repeat (apply Forall_cons || apply Forall_nil); apply gc_field; first [apply repr_gc|apply expo_gc|apply int_gc|apply pt_gc; lia|apply fmt_gc; lia].
Qed.
Lemma split_star a r : forallb line_char a = true -> split_on "*"%char (a ++ "*"%char :: r) = a :: split_on "*"%char r.
Proof.
  induction a as [|c a IH]; cbn [app forallb split_on]; intros H.
  - rewrite ceq_refl. destruct (split_on "*"%char r) eqn:E; [|reflexivity]. destruct r as [|x r]; cbn in E; [discriminate|]. destruct (ceq x "*"%char), (split_on "*"%char r); discriminate.
  - apply andb_prop in H as [A B]. rewrite IH by exact B. destruct (line_char_not c A) as [_ ->]. reflexivity.
Qed.
Lemma nonl_line t : forallb line_char t = true -> forallb line_char (nonl t) = true.
Proof. unfold nonl. intros H. rewrite forallb_forall in *. intros x I. apply filter_In in I as [I _]. auto. Qed.
(** Reading the macro with the line feeds gives the same as without. *)
Lemma macro_nonl ps : Forall prim_writable ps -> read_macro (List.concat (map prim_to_gerber ps)) = read_macro (nonl (List.concat (map prim_to_gerber ps))).
Proof.
  intros W. unfold read_macro. f_equal.
  enough (E : mapM read_block (split_on "*"%char (List.concat (map prim_to_gerber ps))) = mapM read_block (split_on "*"%char (nonl (List.concat (map prim_to_gerber ps))))) by now rewrite E.
  induction W as [|p ps W _ IH]; [reflexivity|]. cbn [map List.concat]. destruct (prim_fields p W) as (c & t & ts & Hc & E & F).
  destruct (commas_field _ F) as [L _]. rewrite E. unfold fields. rewrite join_commas.
  assert (C1 : commas (t :: ts) = ","%char :: t ++ commas ts) by reflexivity. inversion F as [|? ? [F1 F2] F3]; subst. destruct (commas_field _ F3) as [G1 G2].
  assert (TI : tidy true (t ++ commas ts) = true) by (apply tidy_app; [now apply tidy_weak|exact G2]).
  assert (LI : forallb line_char (t ++ commas ts) = true) by (now rewrite forallb_app, F1, G1).
  rewrite C1. pose proof (block_nonl c (t ++ commas ts) Hc LI TI) as B. set (blk := show_nat c ++ ","%char :: t ++ commas ts) in *.
  assert (BL : forallb line_char blk = true) by (unfold blk; rewrite forallb_app; cbn [forallb]; rewrite LI, (gc_line (show_nat c) (nat_gc c)); reflexivity).
  rewrite <- app_assoc. change (T "*" ++ List.concat (map prim_to_gerber ps)) with ("*"%char :: List.concat (map prim_to_gerber ps)).
  rewrite nonl_app, (nonl_cons "*"%char _ eq_refl), !split_star by auto using nonl_line. cbn [mapM]. rewrite <- B, IH. reflexivity.
Qed.
Lemma bare_build ps : Forall prim_writable ps -> exists is, read_macro (List.concat (map prim_to_gerber ps)) = Ok is /\ am_build is [] = Ok ps.
Proof.
  intros W. rewrite macro_nonl by exact W. destruct (blocks_of ps W) as (bs & ys & Bo & Bt & Bv & By). rewrite Bt.
  destruct (macro_meaning_lemma bs [] [] Bo) as (is & R & Ev). exists is. split; [exact R|]. unfold am_build. rewrite Ev, Bv. cbn [bind fst]. exact By.
Qed.

(** ** Shapes *)
Lemma round6_micro v : micro v -> round6 v = v.
Proof.
  intros (m & k & K & -> & M & _). set (N := (m * 10 ^ Z.of_nat (6 - k))%Z).
  assert (G : grid m k = dec N 6).
  { rewrite grid_dec. unfold dec, N. rewrite zq_mult. replace (p10 6) with (p10 k * 10 ^ Z.of_nat (6 - k))%Z.
    - rewrite zq_mult. field. split; apply zq_nonzero; [apply Z.pow_nonzero; lia|pose proof (p10_pos k); lia].
    - unfold p10. rewrite <- Z.pow_add_r by lia. f_equal. lia. }
  assert (B : (Z.abs N < 10 ^ 12)%Z).
  { unfold N. rewrite Z.abs_mul. rewrite (Z.abs_eq (10 ^ _)) by (apply Z.pow_nonneg; lia).
    assert (P : (1 <= 10 ^ Z.of_nat (6 - k) <= 10 ^ 6)%Z).
    { split; [change 1%Z with (10 ^ 0)%Z at 1|]; apply Z.pow_le_mono_r; lia. }
    change (10 ^ 12)%Z with (10 ^ 6 * 10 ^ 6)%Z. nia. }
  unfold round6. rewrite G. pose proof (rnd53_error (dec N 6)) as R. set (v := rnd53 (dec N 6)) in *.
  enough (E : rhe (v * zq (p10 6)) = N) by now rewrite E.
  rewrite qabs_dec in R. pose proof (zq_p10_pos 6) as P. apply (qc_mult_le_r _ _ _ P) in R.
  replace (dec (Z.abs N) 6 * eps53 * zq (p10 6)) with (dec (Z.abs N) 6 * zq (p10 6) * eps53) in R by ring.
  rewrite dec_mult in R. rewrite <- qabs_mult_pos in R by auto.
  assert (Bd : zq (Z.abs N) * eps53 < Q2Qc (1 # 2)).
  { apply (Qcle_lt_trans _ (zq (p10 13) * eps53)); [|reflexivity].
    apply qc_mult_le_r; [reflexivity|]. apply zq_le. change (p10 13) with (10 ^ 13)%Z. lia. }
  replace ((v - dec N 6) * zq (p10 6)) with (v * zq (p10 6) - dec N 6 * zq (p10 6)) in R by ring. rewrite dec_mult in R.
  apply rhe_unique; unfold qabs in R; destruct (Qclt_le_dec _ _) in R; qclra.
Qed.
Lemma micro_short v : micro v -> short_number 6 v.
Proof. intros (m & k & _ & H). exists m, k. exact H. Qed.

Lemma place_seen o x : offset_part (0 - fst o, 0 - snd o) x = offset_part (- fst o, - snd o) x.
Proof. f_equal. f_equal; ring. Qed.
Lemma add_seen o p d : d = (0 - fst o, 0 - snd o) -> add_point p d = seen_from o p.
Proof. intros ->. unfold add_point, seen_from. cbn [fst snd]. f_equal; ring. Qed.
Lemma last_cons {A} (x : A) l d : List.last (x :: l) d = List.last l x.
Proof. revert x d. induction l as [|y l IH]; intros x d; [reflexivity|]. change (List.last (x :: y :: l) d) with (List.last (y :: l) d). rewrite !IH. reflexivity. Qed.
Lemma last_map {A B} (f : A -> B) l d : List.last (map f l) (f d) = f (List.last l d).
Proof. revert d. induction l as [|x l IH]; intros d; [reflexivity|]. cbn [map]. rewrite !last_cons. apply IH. Qed.
Lemma ends_through s l : map snd (lines_through s l) = l.
Proof. revert s. induction l as [|p l IH]; intros s; [reflexivity|]. cbn [lines_through map snd]. now rewrite IH. Qed.
Lemma map_through f s l : map (fun k => (f (fst k), f (snd k))) (lines_through s l) = lines_through (f s) (map f l).
Proof. revert s. induction l as [|p l IH]; intros s; [reflexivity|]. cbn [lines_through map fst snd]. now rewrite IH. Qed.
Lemma through_length s l : List.length (lines_through s l) = List.length l.
Proof. revert s. induction l as [|p l IH]; intros s; [reflexivity|]. cbn [lines_through List.length]. now rewrite IH. Qed.

Lemma shape_made degrees o x : degrees 0 = 0 -> expressible o x ->
  exists p, from_primitive degrees (offset_part (0 - fst o, 0 - snd o) x) = Ok p /\ prim_writable p /\ stands_for o x p.
Proof.
  intros D0. set (d0 := (0 - fst o, 0 - snd o)). assert (AS : forall p, add_point p d0 = seen_from o p) by (intros p; now apply add_seen).
  destruct x as [a b ap pol|c d hs pol|c w h r hs pol|c n radius r hs pol|lines pol]; cbn [expressible offset_part from_primitive]; try contradiction; rewrite ?AS.
  - intros (-> & H & P1 & P2). eexists. split; [reflexivity|]. split; [split; assumption|]. cbn. repeat split; auto.
  - intros (-> & H & -> & P1 & P2 & P3). rewrite D0. eexists. split; [reflexivity|]. split; [|cbn; repeat split; auto].
    split; [exact P3|]. repeat (apply Forall_cons; [assumption|]). apply Forall_cons; [|apply Forall_nil]. split; [reflexivity|now left].
  - intros (-> & H & N & P1 & P2 & P3). replace ((n <? 3) || (12 <? n))%Z with false by (symmetry; apply Bool.orb_false_iff; split; apply Z.ltb_ge; lia).
    assert (E2 : radius * Q2Qc 2 = radius + radius) by (replace (Q2Qc 2) with (1 + 1) by (apply qc_eq_iff; reflexivity); ring). rewrite E2.
    eexists. split; [reflexivity|]. split; [cbn; auto|]. cbn. repeat split; auto.
  - intros (-> & SC & s & l & -> & NE & LA & MI). rewrite through_length in SC.
    set (f := fun k : point * point => (add_point (fst k) d0, add_point (snd k) d0)).
    assert (EM : map f (lines_through s l) = lines_through (seen_from o s) (map (seen_from o) l)).
    { rewrite <- map_through. apply map_ext. intros k. unfold f. now rewrite !AS. }
    rewrite EM. inversion MI as [|? ? M1 M2]; subst.
    assert (RP : forall p, micro_point (seen_from o p) -> round_point (seen_from o p) = seen_from o p).
    { intros p [A B]. unfold round_point. rewrite !round6_micro by assumption. now destruct (seen_from o p). }
    assert (RL : map (fun k => round_point (snd k)) (lines_through (seen_from o s) (map (seen_from o) l)) = map (seen_from o) l).
    { rewrite <- (map_map snd round_point), ends_through, map_map. apply map_ext_in. intros p I. rewrite Forall_forall in M2. auto. }
    rewrite RL. destruct l as [|p l]; [contradiction|]. cbn [lines_through map]. cbn [fst]. rewrite RP by exact M1.
    assert (LS : forall d, List.last (map (seen_from o) (p :: l)) d = seen_from o s).
    { intros d. rewrite <- LA. cbn [map]. rewrite !last_cons. apply last_map. }
    change (seen_from o p :: map (seen_from o) l) with (map (seen_from o) (p :: l)). rewrite LS.
    assert (PE : point_eqb (seen_from o s) (seen_from o s) = true).
    { unfold point_eqb. apply andb_true_intro. split; now destruct (qceq_spec (fst (seen_from o s)) (fst (seen_from o s))), (qceq_spec (snd (seen_from o s)) (snd (seen_from o s))). }
    rewrite PE. eexists. split; [reflexivity|]. split.
    + split; [discriminate|]. rewrite map_length. split; [exact SC|].
      assert (SP : forall p, micro_point p -> short_point 6 p) by (intros q [A B]; split; now apply micro_short).
      split; [now apply SP|]. split; [|split; [apply LS|split; [reflexivity|now left]]].
      apply Forall_map. eapply Forall_impl; [|exact M2]. intros q. apply SP.
    + cbn [stands_for]. split; [|split; [apply LS|split; [reflexivity|split; auto]]].
      rewrite <- map_through. reflexivity.
Qed.
Lemma shapes_made degrees o parts : degrees 0 = 0 -> Forall (expressible o) parts ->
  exists ps, mapM (from_primitive degrees) (map (offset_part (0 - fst o, 0 - snd o)) parts) = Ok ps /\ Forall prim_writable ps /\ Forall2 (stands_for o) parts ps.
Proof.
  intros D0. induction 1 as [|x parts X _ (ps & A & B & C)]; [exists []; repeat split; constructor|].
  destruct (shape_made degrees o x D0 X) as (p & P1 & P2 & P3). exists (p :: ps). cbn [map mapM]. rewrite P1. cbn [bind]. rewrite A. cbn [bind].
  split; [reflexivity|]. split; constructor; assumption.
Qed.
Lemma place_origin position parts : place (0, 0) position parts = map (offset_part (0 - fst (origin_of position), 0 - snd (origin_of position))) parts.
Proof. destruct position as [p|]; [reflexivity|]. cbn [place origin_of fst snd]. apply map_ext. intros x. f_equal. Qed.
Lemma C128_lemma degrees position parts : degrees 0 = 0 -> Forall (expressible (origin_of position)) parts ->
  exists macro is ps, bare_macro degrees position parts = Ok macro /\ read_macro macro = Ok is /\ am_build is [] = Ok ps /\
    Forall2 (stands_for (origin_of position)) parts ps.
Proof.
  intros D0 E. destruct (shapes_made degrees _ parts D0 E) as (ps & A & B & C). destruct (bare_build ps B) as (is & R & Bu).
  exists (List.concat (map prim_to_gerber ps)), is, ps. split; [|auto]. unfold bare_macro. rewrite place_origin, A. cbn [bind]. rewrite R. reflexivity.
Qed.
Lemma line_made degrees o x : plain_line o x ->
  exists p, from_primitive degrees (offset_part (0 - fst o, 0 - snd o) x) = Ok p /\ prim_writable p /\ bar_for o x p.
Proof.
  set (d0 := (0 - fst o, 0 - snd o)). assert (AS : forall p, add_point p d0 = seen_from o p) by (intros p; now apply add_seen).
  destruct x as [a b ap pol|c d hs pol|c w h r hs pol|c n radius r hs pol|lines pol]; cbn [plain_line]; try contradiction.
  destruct ap as [d hs|w h rot hs|w h rot hs|w n r hs]; try contradiction; intros (P1 & P2 & P3); cbn [offset_part from_primitive width_of bind]; rewrite !AS; eexists; (split; [reflexivity|]).
  all: (split; [split; [now left|]; repeat (split; [assumption|]); split; [reflexivity|now left]|cbn; auto 8]).
Qed.
Lemma lines_made degrees o parts : Forall (plain_line o) parts ->
  exists ps, mapM (from_primitive degrees) (map (offset_part (0 - fst o, 0 - snd o)) parts) = Ok ps /\ Forall prim_writable ps /\ Forall2 (bar_for o) parts ps.
Proof.
  induction 1 as [|x parts X _ (ps & A & B & C)]; [exists []; repeat split; constructor|].
  destruct (line_made degrees o x X) as (p & P1 & P2 & P3). exists (p :: ps). cbn [map mapM]. rewrite P1. cbn [bind]. rewrite A. cbn [bind].
  split; [reflexivity|]. split; constructor; assumption.
Qed.
Lemma C128_lines_lemma degrees position parts : Forall (plain_line (origin_of position)) parts ->
  exists macro is ps, bare_macro degrees position parts = Ok macro /\ read_macro macro = Ok is /\ am_build is [] = Ok ps /\
    Forall2 (bar_for (origin_of position)) parts ps.
Proof.
  intros E. destruct (lines_made degrees _ parts E) as (ps & A & B & C). destruct (bare_build ps B) as (is & R & Bu).
  exists (List.concat (map prim_to_gerber ps)), is, ps. split; [|auto]. unfold bare_macro. rewrite place_origin, A. cbn [bind]. rewrite R. reflexivity.
Qed.
