(** Control statements of drill files, written and read back. *)
From Verif Require Import PyBase QcLib NumModel NumSpec NumProofs FmtModel Regex GerberTextProofs MacroProofs GerberText ExcellonModel ExcellonFile ExcellonSpec ExcellonProofs ExcellonRun ExcellonMore DrillLinesSpec.
From Coq Require Import Lia.
Import ListNotations.
Open Scope list_scope.
Open Scope Qc_scope.

Lemma starts_with_app p s : starts_with p s = true -> exists b, s = p ++ b.
Proof.
  revert s. induction p as [|c p IH]; intros s H; [now exists s|]. destruct s as [|x s]; [discriminate|]. cbn in H. apply andb_prop in H as [E H]. apply ceq_true in E. subst x.
  destruct (IH s H) as (b & ->). now exists b.
Qed.
Lemma text_in_contains p s : text_in p s = true -> contains p s.
Proof.
  induction s as [|c s IH]; intro H; cbn [text_in] in H; apply orb_prop in H as [H|H]; try discriminate.
  - destruct (starts_with_app _ _ H) as (b & E). exists [], b. exact E.
  - destruct (starts_with_app _ _ H) as (b & E). exists [], b. exact E.
  - destruct (IH H) as (a & b & ->). now exists (c :: a), b.
Qed.
Lemma not_contained p s : ~ contains p s -> text_in p s = false.
Proof. intro N. destruct (text_in p s) eqn:E; [|reflexivity]. destruct N. now apply text_in_contains. Qed.

Ltac disp st E :=
  unfold parse_line; rewrite E; cbn [app]; rewrite with_prev_same by exact E;
  try match goal with |- context [strip (T ?l)] => let x := eval cbv in (T l) in change (strip (T l)) with (strip x) end;
  let r' := fresh in
  match goal with |- context [strip (?c :: ?r)] => destruct (strip_cons c r ltac:(reflexivity)) as [r' ->] end; cbv zeta.

Lemma dispatch_feed holesize st r : x_prev st = [] -> ~ In "I"%char r -> ~ In "M"%char r -> ~ In "A"%char r ->
  parse_line holesize st ("F"%char :: r) = do n <- py_int_s r; Ok (add_stmt (EFeed n) st).
Proof.
  intros E NI NM NA.
  assert (TI : text_in (T "INCH") ("F"%char :: r) = false) by (apply text_in_absent; intros [X|X]; [discriminate|auto]).
  assert (TM : text_in (T "METRIC") ("F"%char :: r) = false) by (apply text_in_absent; intros [X|X]; [discriminate|auto]).
  assert (TF : starts_with (T "FMAT") ("F"%char :: r) = false).
  { destruct r as [|x r]; [reflexivity|]. cbn. destruct (ceq_spec "M"%char x) as [<-|N]; [destruct NM; now left|]. reflexivity. }
  disp st E. rewrite TI, TM, TF. reflexivity.
Qed.
Lemma comment_read holesize st c : x_prev st = [] -> plain_comment c -> parse_line holesize st (";"%char :: c) = Ok (add_stmt (EComment c) st).
Proof.
  intros E [H W]. disp st E. cbn [ceq Ascii.eqb Bool.eqb]. change (ceq ";"%char ";"%char) with true. cbn iota. unfold comment_line.
  assert (L : lstrip ";"%char (";"%char :: c) = c).
  { cbn [lstrip]. change (ceq ";"%char ";"%char) with true. cbn iota. destruct c as [|x c]; [reflexivity|]. cbn [lstrip]. destruct (ceq_spec x ";"%char) as [X|N]; [now destruct H|reflexivity]. }
  rewrite L. cbv zeta. rewrite !(not_contained _ c) by (apply W; cbn; auto 10). reflexivity.
Qed.

Lemma control_read holesize st se h s u : control u s -> x_prev st = [] ->
  exists t st', write_stmt se h (s, u) = Ok t /\ parse_line holesize st t = Ok st' /\ x_stmts st' = x_stmts st ++ [s] /\ modes_of st' = changed s (modes_of st) /\ all_else st' = all_else st.
Proof.
  intros C E. destruct C as [ | | | | | | | | |z|on|n Hn|n Hn| | | |n Hn|c Hc]; cbn [write_stmt fst snd];
    try (eexists; eexists; split; [reflexivity|]; split; [disp st E; reflexivity|]; split; [reflexivity|]; split; reflexivity).
  - eexists; eexists; split; [reflexivity|]; split; [disp st E; reflexivity|]. unfold is_header, modes_of, all_else, changed, add_stmt. cbn. destruct (x_state st) eqn:S; cbn; rewrite ?S; auto.
  - eexists; eexists; split; [reflexivity|]; split; [disp st E; reflexivity|]. unfold modes_of, all_else, changed, add_stmt. cbn. destruct (x_state st) eqn:S; cbn; rewrite ?S; auto.
  - destruct u, z; cbn [T list_ascii_of_string app]; eexists; eexists; (split; [reflexivity|]; split; [disp st E; reflexivity|]; split; [reflexivity|]; split; reflexivity).
  - destruct on; eexists; eexists; (split; [reflexivity|]; split; [disp st E; reflexivity|]; split; [reflexivity|]; split; reflexivity).
  - destruct Hn as [-> | ->]; eexists; eexists; (split; [vm_compute; reflexivity|]; split; [disp st E; reflexivity|]; split; [reflexivity|]; split; reflexivity).
  - destruct Hn as [-> | ->]; eexists; eexists; (split; [vm_compute; reflexivity|]; split; [disp st E; reflexivity|]; split; [reflexivity|]; split; reflexivity).
  - destruct u; eexists; eexists; (split; [reflexivity|]; split; [disp st E; reflexivity|]; split; [reflexivity|]; split; reflexivity).
  - destruct (show2_spec n Hn) as (D & V & L & _). eexists; eexists. split; [reflexivity|]. split.
    + rewrite dispatch_feed; [|exact E| | |]; try (intro J; unfold digit_string in D; rewrite Forall_forall in D; apply D in J; apply digit_in in J; discriminate).
      rewrite py_int_s_digits; [rewrite V; reflexivity|exact D|intro X; rewrite X in L; cbn in L; lia].
    + split; [reflexivity|]. split; reflexivity.
  - eexists; eexists. split; [reflexivity|]. split; [now apply comment_read|]. split; [reflexivity|]. split; reflexivity.
Qed.

(** ** End coordinates *)
Lemma not_neg k d : (0 <= k)%Z -> is_neg (dec k d) = false.
Proof.
  intro K. unfold is_neg. destruct (qclt_spec (dec k d) 0) as [L|L]; [|reflexivity]. exfalso. apply (Qclt_not_le _ _ L). replace 0 with (dec 0 d) by (unfold dec, Qcdiv; rewrite Qcmult_0_l; reflexivity).
  now apply dec_le.
Qed.
Lemma rstrip_zeros s n : rstrip_p (ceq "0"%char) (s ++ zeros n) = rstrip_p (ceq "0"%char) s.
Proof.
  unfold rstrip_p. f_equal. rewrite rev_app_distr. assert (Z : rev (zeros n) = zeros n) by (induction n as [|n IH]; [reflexivity|]; cbn [zeros repeat]; unfold zeros in *; cbn [repeat]; cbn [rev]; rewrite IH; clear; induction n as [|n IH]; [reflexivity|]; cbn [repeat app]; now rewrite IH).
  rewrite Z. induction n as [|n IH]; [reflexivity|]. unfold zeros in *. cbn [repeat app lstrip_p]. change (ceq "0"%char "0"%char) with true. cbn iota. apply IH. clear. induction n as [|n IH]; [reflexivity|]. cbn [repeat rev]. rewrite IH. clear. induction n as [|n IH]; [reflexivity|]. cbn [repeat app]. now rewrite IH.
Qed.
Lemma dig_zeros k j : dig j (k * p10 j) = zeros j.
Proof.
  revert k. induction j as [|j IH]; intro k; [reflexivity|]. cbn [dig]. unfold p10 in *. rewrite Nat2Z.inj_succ, Z.pow_succ_r by lia.
  replace (k * (10 * 10 ^ Z.of_nat j))%Z with ((k * 10 ^ Z.of_nat j) * 10)%Z by ring. rewrite Z.div_mul, Z.mod_mul by lia. rewrite IH. clear. unfold zeros. induction j as [|j IH]; [reflexivity|]. cbn [repeat app]. rewrite IH. reflexivity.
Qed.
Lemma dig_shift a j k : (0 <= k)%Z -> dig (a + j) (k * p10 j) = dig a k ++ zeros j.
Proof. intro K. rewrite dig_split, dig_zeros. unfold p10. rewrite Z.div_mul by (apply Z.pow_nonzero; lia). reflexivity. Qed.
(** Written with five decimals as with any smaller number of them *)
Lemma five_decimals d k : (d <= 5)%nat -> (0 <= k < p10 (2 + d))%Z ->
  write_gerber_value (grid k d) (2, 5)%nat Trailing = Ok (if (k =? 0)%Z then T "0" else suppress Trailing (dig (2 + d) k)).
Proof.
  intros D K. assert (X : (5 = d + (5 - d))%nat) by lia. rewrite grid_dec. rewrite <- (dec_shift k d (5 - d)), <- X.
  assert (B : (k * p10 (5 - d) < p10 (2 + 5))%Z).
  { replace (p10 (2 + 5)) with (p10 (2 + d) * p10 (5 - d))%Z; [apply Z.mul_lt_mono_pos_r; [apply p10_pos|lia]|]. unfold p10. rewrite <- Z.pow_add_r by lia. f_equal. lia. }
  assert (P : (0 < p10 (5 - d))%Z) by apply p10_pos.
  rewrite write_spec by (try (unfold usable_format; lia); rewrite scaled_dec, Z.abs_eq by nia; exact B). rewrite scaled_dec, Z.abs_eq by nia.
  assert (E0 : (k * p10 (5 - d) =? 0)%Z = (k =? 0)%Z) by (apply Bool.eq_iff_eq_true; rewrite !Z.eqb_eq; nia). rewrite E0.
  destruct (k =? 0)%Z; [reflexivity|]. f_equal.
  assert (Ng : is_neg (dec (k * p10 (5 - d)) 5) = false).
  { apply not_neg. nia. }
  rewrite Ng. cbn [sign_text NumProofs.sign_text app]. replace (2 + 5)%nat with ((2 + d) + (5 - d))%nat by lia. rewrite dig_shift by lia. unfold suppress. apply rstrip_zeros.
Qed.
Lemma end_number d k : (1 <= d <= 5)%nat -> (0 <= k < p10 (2 + d))%Z ->
  exists t, write_gerber_value (grid k d) (2, 5)%nat Trailing = Ok t /\ digit_string t /\ t <> [] /\ reads 2 d ZLead t (grid k d).
Proof.
  intros D K. rewrite (five_decimals d k (proj2 D) K). set (t := if (k =? 0)%Z then T "0" else suppress Trailing (dig (2 + d) k)).
  assert (U : usable_format 2 d) by (unfold usable_format; lia).
  assert (W : write_value (mkXset Inch (2, d)%nat ZLead Absolute) (grid k d) = Ok t).
  { unfold write_value. cbn [xs_format xs_zeros suppression]. rewrite grid_dec. rewrite write_spec by (try exact U; rewrite scaled_dec, Z.abs_eq by lia; lia). rewrite scaled_dec, Z.abs_eq by lia. unfold t.
    destruct (k =? 0)%Z; [reflexivity|]. f_equal. rewrite not_neg by lia. reflexivity. }
  destruct (write_reads 2 d (mkXset Inch (2, d)%nat ZLead Absolute) (grid k d) U eq_refl) as (t' & W' & R); [exists k; split; [unfold p10 in K; lia|reflexivity]|]. rewrite W in W'. apply ok_inj in W'. subst t'.
  exists t. split; [reflexivity|]. assert (S : digit_string t /\ t <> []).
  { unfold t. destruct (Z.eqb_spec k 0) as [E|E]; [split; [constructor; [left; reflexivity|constructor]|discriminate]|].
    pose proof (suppress_sub Trailing (dig (2 + d) k) (dig_digits _ _)) as [SD SL]. split; [now apply digit_string_iff|]. apply suppress_nonempty. rewrite dval_dig, Z.mod_small; [exact E|]. unfold p10 in K. lia. }
  destruct S. auto.
Qed.
Lemma first_unsigned ds r : digit_string ds -> match r with c :: _ => num_char c = false | [] => True end -> first unsigned_re (ds ++ r) (ds, [], r).
Proof.
  intros D Hr.
  assert (Hd : match r with c :: _ => is_digit c = false | [] => True end).
  { destruct r as [|c r]; [exact I|]. unfold num_char in Hr. now destruct (is_digit c). }
  assert (Hp : match r with c :: _ => ceq "."%char c = false | [] => True end).
  { destruct r as [|c r]; [exact I|]. apply ceq_false. intros <-. discriminate. }
  rewrite <- (app_nil_r ds) at 2. apply (first_seq _ _ _ ds [] r [] [] r).
  { apply first_star; [now apply digit_string_forallb|exact Hd]. }
  apply (first_seq _ _ _ [] [] r [] [] r); [now apply first_opt_cls_none|]. now apply (first_star is_digit [] r).
Qed.
Lemma first_end c n d o t r : num_char c = false -> end_coordinate d o -> (1 <= d <= 5)%nat -> write_default c o = Ok t ->
  match r with x :: _ => num_char x = false /\ x <> c | [] => True end ->
  exists a b, t = a ++ b /\ first (Opt (chr c)) (t ++ r) (a, [], b ++ r) /\ first (Opt (Grp n unsigned_re)) (b ++ r) (b, [(n, b)], r) /\
    (o = None -> b = []) /\ (forall q, o = Some q -> reads 2 d ZLead b q) /\ (t = [] \/ exists t', t = c :: t').
Proof.
  intros Hc G D W Hr. assert (Hn : match r with x :: _ => num_char x = false | [] => True end) by (destruct r; [exact I|apply Hr]).
  destruct o as [v|]; cbn [write_default] in W.
  - destruct G as (k & K & ->). destruct (end_number d k D K) as (ds & E & Ds & N & R). rewrite E in W. cbn [bind] in W. apply ok_inj in W. subst t. exists [c], ds.
    split; [reflexivity|]. split; [apply first_opt, first_cls, ceq_refl|]. split; [apply first_opt, first_grp; now apply first_unsigned|]. split; [discriminate|]. split; [intros q [= <-]; exact R|right; eauto].
  - apply ok_inj in W. subst t. exists [], []. split; [reflexivity|]. split; [|split; [|split; [auto|split; [discriminate|now left]]]].
    + apply first_opt_cls_none. destruct r as [|x r]; [exact I|]. apply ceq_false. intros <-. now destruct Hr.
    + apply first_opt, first_grp. now apply (first_unsigned [] r (Forall_nil _)).
Qed.
Lemma write_default_ok c d o : end_coordinate d o -> (1 <= d <= 5)%nat -> exists t, write_default c o = Ok t.
Proof. intros G D. destruct o as [v|]; [|eexists; reflexivity]. destruct G as (k & K & ->). destruct (end_number d k D K) as (ds & E & _). cbn [write_default]. rewrite E. eexists. reflexivity. Qed.
Lemma read_end_says d x y tx ty se : (1 <= d <= 5)%nat -> end_coordinate d x -> end_coordinate d y -> write_default "X"%char x = Ok tx -> write_default "Y"%char y = Ok ty ->
  xs_format se = (2, d)%nat -> xs_zeros se = ZLead -> read_end se (T "M30" ++ tx ++ ty) = Ok (x, y).
Proof.
  intros D Gx Gy Wx Wy F Z.
  destruct (first_end "Y"%char (T "y") d y ty [] eq_refl Gy D Wy I) as (ya & yb & Ey & Fya & Fyb & Y0 & Y1 & Hy).
  assert (Hty : match ty with c :: _ => num_char c = false /\ c <> "X"%char | [] => True end) by (destruct Hy as [->|(t' & ->)]; [exact I|split; [reflexivity|discriminate]]).
  destruct (first_end "X"%char (T "x") d x tx ty eq_refl Gx D Wx Hty) as (xa & xb & Ex & Fxa & Fxb & X0 & X1 & Hx).
  rewrite app_nil_r in Fya. rewrite (app_nil_r yb) in Fya, Fyb.
  assert (M : re_match end_re (T "M30" ++ tx ++ ty) = Some ([(T "y", yb); (T "x", xb)], [])).
  { apply first_match with (u := T "M30" ++ xa ++ xb ++ ya ++ yb).
    apply (first_seq _ _ _ (T "M30") [] (tx ++ ty) (xa ++ xb ++ ya ++ yb) [(T "y", yb); (T "x", xb)] []); [apply first_lit|].
    apply (first_seq _ _ _ xa [] (xb ++ ty) (xb ++ ya ++ yb) [(T "y", yb); (T "x", xb)] []); [exact Fxa|].
    apply (first_seq _ _ _ xb [(T "x", xb)] ty (ya ++ yb) [(T "y", yb)] []); [exact Fxb|].
    apply (first_seq _ _ _ ya [] yb yb [(T "y", yb)] []); [exact Fya|exact Fyb]. }
  assert (Hr : readable 2 d) by (unfold readable; lia).
  unfold read_end. rewrite M. change (group "x" _) with (Some xb). change (group "y" _) with (Some yb).
  rewrite (opt_value_says 2 d ZLead xb x se), (opt_value_says 2 d ZLead yb y se) by auto. reflexivity.
Qed.
Lemma end_read holesize st se h u d x y : (1 <= d <= 5)%nat -> end_coordinate d x -> end_coordinate d y -> x_prev st = [] -> x_format st = [2; Z.of_nat d]%Z -> x_zeros st = ZLead ->
  exists t st', write_stmt se h (EEnd x y, u) = Ok t /\ parse_line holesize st t = Ok st' /\ x_stmts st' = x_stmts st ++ [EEnd x y] /\ modes_of st' = modes_of st /\ all_else st' = all_else st.
Proof.
  intros D Gx Gy E F Z. destruct (write_default_ok "X"%char d x Gx D) as (tx & Wx). destruct (write_default_ok "Y"%char d y Gy D) as (ty & Wy).
  cbn [write_stmt fst snd]. rewrite Wx, Wy. cbn [bind]. eexists; eexists. split; [reflexivity|].
  assert (S : exists se', settings_of st = Ok se' /\ xs_format se' = (2, d)%nat /\ xs_zeros se' = ZLead).
  { unfold settings_of. rewrite F. replace (Z.of_nat d <? 0)%Z with false by (symmetry; apply Z.ltb_ge; lia). change (2 <? 0)%Z with false. cbn [orb]. eexists. split; [reflexivity|]. cbn [xs_format xs_zeros]. rewrite Nat2Z.id. auto. }
  destruct S as (se' & S & F' & Z'). split.
  - assert (R : read_end se' (T "M30" ++ tx ++ ty) = Ok (x, y)) by (apply (read_end_says d); auto). cbn [T list_ascii_of_string app] in *.
    disp st E. match goal with |- context [starts_with (T "M30") ?l] => change (starts_with (T "M30") l) with true end. rewrite S. cbn [bind]. rewrite R. reflexivity.
  - split; [reflexivity|]. split; reflexivity.
Qed.
Lemma controls_read holesize se h u l : Forall (control u) l -> forall st, x_prev st = [] ->
  exists ts st', Forall2 (fun s t => write_stmt se h (s, u) = Ok t) l ts /\ parse_lines holesize st ts = Ok st' /\
    x_stmts st' = x_stmts st ++ l /\ modes_of st' = fold_left (fun m s => changed s m) l (modes_of st) /\ all_else st' = all_else st.
Proof.
  induction 1 as [|s l C _ IH]; intros st E.
  - exists [], st. split; [constructor|]. split; [reflexivity|]. rewrite app_nil_r. auto.
  - destruct (control_read holesize st se h s u C E) as (t & st1 & W & P & S1 & M1 & A1).
    assert (E1 : x_prev st1 = []) by (unfold all_else in A1; congruence).
    destruct (IH st1 E1) as (ts & st2 & W2 & P2 & S2 & M2 & A2). exists (t :: ts), st2.
    split; [now constructor|]. split; [cbn [parse_lines]; rewrite P; exact P2|]. split; [rewrite S2, S1, <- app_assoc; reflexivity|]. split; [rewrite M2, M1; reflexivity|congruence].
Qed.
