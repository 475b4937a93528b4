(** Proofs about aperture macros. *)
From Verif Require Import PyBase QcLib NumModel NumSpec NumProofs MacroModel MacroSpec.
Open Scope Qc_scope.

(** ** The scanning loop *)

Lemma span_digits_length s a r : span_digits s = (a, r) -> s = a ++ r.
Proof.
  revert a r. induction s as [|c s IH]; simpl; intros a r H; [now injection H as <- <-|].
  destruct (is_digit c); [|now injection H as <- <-].
  destruct (span_digits s) as [a' r'] eqn:E. injection H as <- <-. simpl. f_equal. now apply IH.
Qed.

Lemma span_num_app s a r : span_num s = (a, r) -> s = a ++ r.
Proof.
  revert a r. induction s as [|c s IH]; cbn [span_num]; intros a r H; [now injection H as <- <-|].
  destruct (is_digit c || ceq c "."%char); [|now injection H as <- <-].
  destruct (span_num s) as [a' r'] eqn:E. injection H as <- <-. cbn [app]. f_equal. now apply IH.
Qed.

Lemma readint_shrinks s n r : readint s = Ok (n, r) -> (List.length r < List.length s)%nat.
Proof.
  unfold readint. destruct (span_digits s) as [a b] eqn:E. apply span_digits_length in E. subst s.
  destruct a; [discriminate|]. intros H. apply ok_inj in H. injection H as _ <-.
  rewrite app_length. cbn [List.length]. lia.
Qed.

Lemma step_shrinks q b c r b' r' : step q b c r = Ok (b', r') -> (List.length r' <= List.length r)%nat.
Proof.
  unfold step. intros H.
  destruct (ceq c ","%char); [apply ok_inj in H; injection H as _ <-; lia|].
  destruct (is_op c).
  { destruct (ceq c "-"%char && b_uma b); [apply ok_inj in H; injection H as _ <-; lia|].
    destruct (pop_higher c (b_ops b)). apply ok_inj in H; injection H as _ <-; lia. }
  destruct (ceq c "("%char); [apply ok_inj in H; injection H as _ <-; lia|].
  destruct (ceq c ")"%char).
  { destruct (pop_paren (b_ops b)) as [p [|x q']]; [discriminate|].
    apply ok_inj in H; injection H as _ <-; lia. }
  destruct (ceq c "$"%char).
  { destruct (readint r) as [[n r1]|] eqn:E; [|discriminate]. apply readint_shrinks in E. cbn [bind] in H.
    destruct (q && negb (b_lhs_found b)); apply ok_inj in H; injection H as _ <-; lia. }
  destruct (ceq c "="%char); [apply ok_inj in H; injection H as _ <-; lia|].
  destruct (ceq c "0"%char).
  { destruct (negb q && negb (b_code_found b));
      [apply ok_inj in H; injection H as _ <-; cbn; lia|].
    destruct r as [|d r]; [apply ok_inj in H; injection H as _ <-; lia|].
    destruct (ceq d "."%char); apply ok_inj in H; injection H as _ <-; lia. }
  destruct (is_digit c || ceq c "."%char) eqn:D; [|apply ok_inj in H; injection H as _ <-; lia].
  destruct (negb q && negb (b_code_found b)).
  - destruct (readint (c :: r)) as [[n r1]|] eqn:E; [|discriminate]. apply readint_shrinks in E.
    cbn [bind List.length] in *. apply ok_inj in H; injection H as _ <-; lia.
  - destruct (readfloat (c :: r)) as [[n r1]|] eqn:E; [|discriminate]. cbn [bind] in H.
    apply ok_inj in H. injection H as _ <-.
    unfold readfloat in E. cbn [span_num] in E. rewrite D in E.
    destruct (span_num r) as [a r2] eqn:S. apply span_num_app in S.
    assert (r1 = r2) as ->.
    { destruct (teq (c :: a) (T ".")); [apply ok_inj in E; now injection E|].
      destruct (py_float (c :: a)); [|discriminate]. cbn in E. apply ok_inj in E; now injection E. }
    subst r. rewrite app_length. lia.
Qed.

Lemma loop_fuel q : forall n m b s, (List.length s < n)%nat -> (List.length s < m)%nat ->
  loop n q b s = loop m q b s.
Proof.
  induction n as [|n IH]; intros m b s Hn Hm; [lia|].
  destruct m as [|m]; [lia|]. simpl. destruct s as [|c r]; [reflexivity|].
  destruct (step q b c r) as [[b' r']|] eqn:E; [|reflexivity]. cbn [bind].
  apply step_shrinks in E. cbn [List.length] in *. apply IH; lia.
Qed.

Lemma loop_S n q b c r : loop (S n) q b (c :: r) = do (b', r') <- step q b c r; loop n q b' r'.
Proof. reflexivity. Qed.

Definition run (q : bool) (b : bst) (s : text) : res bst := loop (S (List.length s)) q b s.

Lemma run_nil q b : run q b [] = Ok b.
Proof. reflexivity. Qed.

Lemma run_cons q b c r : run q b (c :: r) = do (b', r') <- step q b c r; run q b' r'.
Proof.
  unfold run. cbn [List.length]. rewrite loop_S.
  destruct (step q b c r) as [[b' r']|] eqn:E; [|reflexivity]. cbn [bind].
  apply step_shrinks in E. cbn [List.length] in *. apply loop_fuel; lia.
Qed.

(** ** Numbers *)

Definition stops (s : text) : Prop :=
  match s with c :: _ => is_digit c = false /\ c <> "."%char | [] => True end.

Lemma span_num_all s r : forallb (fun c => is_digit c || ceq c "."%char) s = true -> stops r ->
  span_num (s ++ r) = (s, r).
Proof.
  induction s as [|c s IH]; intros H Hr.
  - destruct r as [|c r]; [reflexivity|]. destruct Hr as [H1 H2]. cbn [app span_num].
    rewrite H1. apply ceq_false in H2. now rewrite H2.
  - cbn [forallb] in H. apply andb_prop in H as [H1 H2]. cbn [app span_num].
    rewrite H1, IH by auto. reflexivity.
Qed.

Lemma py_float_int a : all_digits a = true -> a <> [] -> py_float a = Ok (dec (dval a) 0).
Proof.
  intros Ha Hne. unfold py_float. rewrite strip_id.
  2:{ intros c Hc. apply digit_not_space. eapply all_digits_in; eauto. }
  destruct a as [|c a]; [contradiction|].
  pose proof Ha as Ha'. cbn [all_digits forallb] in Ha. apply andb_prop in Ha as [Hc _].
  rewrite !digit_neq by (auto; reflexivity).
  unfold py_float_unsigned. rewrite <- (app_nil_r (c :: a)) at 1.
  rewrite span_digits_all by auto. reflexivity.
Qed.

Lemma stops_digit s : stops s -> match s with c :: _ => is_digit c = false | [] => True end.
Proof. destruct s; simpl; tauto. Qed.

Lemma digits_num s : all_digits s = true -> forallb (fun c => is_digit c || ceq c "."%char) s = true.
Proof.
  unfold all_digits. induction s as [|c s IH]; [auto|]. cbn [forallb]. intros H. apply andb_prop in H as [-> H].
  now rewrite IH.
Qed.

Lemma forallb_app_true {A} (p : A -> bool) a b :
  forallb p a = true -> forallb p b = true -> forallb p (a ++ b) = true.
Proof. intros. rewrite forallb_app. now rewrite H, H0. Qed.

(** The text of a literal after a possible leading '0'. *)
Lemma readfloat_lit l rest : lit_ok l -> lit_text l <> T "0" -> stops rest ->
  readfloat (lit_text l ++ rest) = Ok (lit_value l, rest).
Proof.
  intros [Hi [Hd Hs]] Hz Hr. destruct l as [i d]. cbn [l_int l_dec] in *. unfold lit_text, lit_value in *.
  cbn [l_int l_dec] in *. pose proof (proj1 (digit_string_iff _) Hi) as Ii.
  destruct d as [d|].
  - pose proof (proj1 (digit_string_iff _) Hd) as Di.
    unfold readfloat. rewrite span_num_all; auto.
    2:{ apply forallb_app_true; [now apply digits_num|]. cbn [T list_ascii_of_string app forallb].
        rewrite digits_num by auto. reflexivity. }
    destruct (teq _ _) eqn:E.
    { apply teq_true in E. destruct i as [|c i]; [|destruct i; discriminate E].
      cbn in E. injection E as ->. destruct Hs as [Hs|[[c [r [Hs _]]]|[_ [c [r Hs]]]]]; discriminate. }
    change (T "." ++ d) with ("."%char :: d).
    rewrite py_float_decimal; auto.
    + cbn [bind]. rewrite grid_dec, int_of_dval; auto. now apply digit_string_iff; rewrite all_digits_app, Ii, Di.
    + destruct Hs as [->|[[c [r [-> _]]]|[-> [c [r Hs]]]]]; try discriminate. injection Hs as ->. discriminate.
  - rewrite app_nil_r in *. unfold readfloat. rewrite span_num_all; auto using digits_num.
    assert (i <> []) by (destruct Hs as [->|[[c [r [-> _]]]|[_ [c [r Hs]]]]]; discriminate).
    destruct (teq _ _) eqn:E.
    { apply teq_true in E. subst i. discriminate Ii. }
    rewrite py_float_int by auto. cbn [bind]. rewrite grid_dec, int_of_dval by auto. reflexivity.
Qed.

Definition ready (q : bool) (b : bst) : Prop := (if q then b_lhs_found b else b_code_found b) = true.

Lemma digit_not_op c : is_digit c = true -> is_op c = false.
Proof. intros H. unfold is_op. rewrite !digit_neq by (auto; reflexivity). reflexivity. Qed.

Lemma digit_other c : is_digit c = true ->
  ceq c "," = false /\ is_op c = false /\ ceq c "(" = false /\ ceq c ")" = false /\ ceq c "$" = false /\
  ceq c "=" = false /\ ceq c "." = false /\ ceq c "*" = false.
Proof.
  intros H. rewrite (digit_not_op c H), !digit_neq by (auto; reflexivity). repeat split.
Qed.

Definition push_num (v : Qc) (b : bst) : bst :=
  if b_um b then emit [PUSH (MNum (v * - (1)))] (with_um false b) else emit [PUSH (MNum v)] b.

(** One step of the loop at a digit other than '0', or at a point. *)
Lemma step_number q b c r v r' : ready q b -> (is_digit c = true /\ c <> "0"%char \/ c = "."%char) ->
  readfloat (c :: r) = Ok (v, r') -> step q b c r = Ok (push_num v b, r').
Proof.
  intros Hr Hc Hf. unfold step.
  assert (Hn : negb q && negb (b_code_found b) = false).
  { unfold ready in Hr. destruct q; [reflexivity|]. now rewrite Hr. }
  destruct Hc as [[Hd H0]|Hp].
  - destruct (digit_other c Hd) as (-> & -> & -> & -> & -> & -> & _ & _).
    apply ceq_false in H0. rewrite H0, Hd. cbn [orb]. rewrite Hn, Hf. cbn [bind]. unfold push_num.
    reflexivity.
  - subst c. cbn [ceq Ascii.eqb is_op orb is_digit]. 
    change (ceq "." ",") with false. change (is_op ".") with false. change (ceq "." "(") with false.
    change (ceq "." ")") with false. change (ceq "." "$") with false. change (ceq "." "=") with false.
    change (ceq "." "0") with false. change (is_digit "." || ceq "." ".") with true.
    cbv iota. rewrite Hn, Hf. cbn [bind]. reflexivity.
Qed.

Lemma step_zero q b r : ready q b ->
  step q b "0"%char r =
  match r with
  | d :: _ => if ceq d "."%char then Ok (b, r) else Ok (emit [PUSH (MNum 0)] b, r)
  | [] => Ok (emit [PUSH (MNum 0)] b, r)
  end.
Proof.
  intros Hr. unfold step.
  assert (Hn : negb q && negb (b_code_found b) = false).
  { unfold ready in Hr. destruct q; [reflexivity|]. now rewrite Hr. }
  change (ceq "0" ",") with false. change (is_op "0") with false. change (ceq "0" "(") with false.
  change (ceq "0" ")") with false. change (ceq "0" "$") with false. change (ceq "0" "=") with false.
  change (ceq "0" "0") with true. cbv iota. rewrite Hn. reflexivity.
Qed.

Lemma lit_value_0 : lit_value (mkLit (T "0") None) = 0.
Proof. apply qc_eq_iff. reflexivity. Qed.

Lemma run_lit q b l rest : ready q b -> lit_ok l -> stops rest ->
  (b_um b = true -> l <> mkLit (T "0") None) ->
  run q b (lit_text l ++ rest) = run q (push_num (lit_value l) b) rest.
Proof.
  intros Hr Hl Hs Hu. pose proof Hl as [Hi [Hd Hsh]]. destruct l as [i d]. cbn [l_int l_dec] in *.
  pose proof (proj1 (digit_string_iff _) Hi) as Ii.
  destruct Hsh as [->|[(c & r & -> & Hc)|(-> & c & r & ->)]].
  - (* integer part 0 *)
    destruct d as [d|].
    + unfold lit_text. cbn [l_int l_dec].
      change ((T "0" ++ T "." ++ d) ++ rest) with ("0"%char :: "."%char :: d ++ rest).
      rewrite run_cons, step_zero by auto. rewrite ceq_refl. cbn [bind].
      rewrite run_cons.
      assert (F : readfloat ("."%char :: d ++ rest) = Ok (lit_value (mkLit (T "0") (Some d)), rest)).
      { destruct d as [|x d].
        - unfold readfloat. change ("."%char :: [] ++ rest) with (T "." ++ rest).
          rewrite span_num_all by auto. rewrite teq_refl. f_equal.
        - pose proof (readfloat_lit (mkLit [] (Some (x :: d))) rest) as R.
          unfold lit_text in R. cbn [l_int l_dec] in R.
          change (([] ++ T "." ++ x :: d) ++ rest) with ("."%char :: (x :: d) ++ rest) in R.
          rewrite R; auto.
          + split; [constructor|split; [exact Hd|]]. right. right. cbn. eauto.
          + discriminate. }
      rewrite (step_number q b _ _ (lit_value (mkLit (T "0") (Some d))) rest); auto.
    + unfold lit_text. cbn [l_int l_dec]. rewrite app_nil_r. change (T "0" ++ rest) with ("0"%char :: rest).
      rewrite run_cons, step_zero by auto. rewrite lit_value_0.
      destruct (b_um b) eqn:U; [exfalso; now apply Hu|].
      assert (E : push_num 0 b = emit [PUSH (MNum 0)] b) by (unfold push_num; now rewrite U).
      rewrite E. destruct rest as [|x rest]; [reflexivity|].
      destruct Hs as [_ Hs]. apply ceq_false in Hs. rewrite Hs. reflexivity.
  - assert (E : lit_text {| l_int := c :: r; l_dec := d |} ++ rest
            = c :: (r ++ match d with Some d => T "." ++ d | None => [] end) ++ rest) by reflexivity.
    rewrite E, run_cons.
    rewrite (step_number q b _ _ (lit_value (mkLit (c :: r) d)) rest); auto.
    + left. cbn [all_digits forallb] in Ii. now apply andb_prop in Ii as [Ii _].
    + rewrite <- (readfloat_lit (mkLit (c :: r) d) rest) at 1; auto.
      unfold lit_text. cbn [l_int l_dec]. intros X. injection X. congruence.
  - assert (E : lit_text {| l_int := []; l_dec := Some (c :: r) |} ++ rest
            = "."%char :: (c :: r) ++ rest) by reflexivity.
    rewrite E, run_cons.
    rewrite (step_number q b _ _ (lit_value (mkLit [] (Some (c :: r)))) rest); auto.
    rewrite <- (readfloat_lit (mkLit [] (Some (c :: r))) rest) at 1; auto. discriminate.
Qed.

(** ** Expressions: the reader emits postfix code *)

Definition mul_char (o : mulop) : ascii := match o with Times => "x" | TimesX => "X" | Over => "/" end.
Definition add_char (o : addop) : ascii := match o with Plus => "+" | Minus => "-" end.
Definition mul_code (o : mulop) : instr := match o with Over => DIV | _ => MUL end.
Definition add_code (o : addop) : instr := match o with Plus => ADD | Minus => SUB end.

Fixpoint fac_code (f : fac) : list instr :=
  match f with
  | FLit l => [PUSH (MNum (lit_value l))]
  | FVar n => [LOAD n]
  | FPar e => exp_code e
  end
with term_code (t : term) : list instr :=
  match t with TFac f => fac_code f | TMul t o f => term_code t ++ fac_code f ++ [mul_code o] end
with exp_code (e : exp) : list instr :=
  match e with ETerm t => term_code t | EAdd e o t => exp_code e ++ term_code t ++ [add_code o] end.

Scheme fac_mut := Induction for fac Sort Prop
with term_mut := Induction for term Sort Prop
with exp_mut := Induction for exp Sort Prop.
Combined Scheme syntax_ind from fac_mut, term_mut, exp_mut.

(** Pending operators [ps] (top first) are all of precedence at least [n]. *)
Definition pending (n : nat) (ps : list ascii) : Prop :=
  Forall (fun o => is_op o = true /\ (n <= precedence o)%nat) ps.
(** Below the pending operators, the stack has an operator of precedence < n or a non-operator. *)
Definition base (n : nat) (ops : list ascii) : Prop :=
  match ops with o :: _ => is_op o = true -> (precedence o < n)%nat | [] => True end.

Lemma pop_higher_pending c ps ops : pending (precedence c) ps -> base (precedence c) ops ->
  pop_higher c (ps ++ ops) = (ps, ops).
Proof.
  intros Hp Hb. induction Hp as [|o ps [H1 H2] _ IH].
  - cbn [app]. destruct ops as [|o ops]; [reflexivity|]. cbn [pop_higher].
    destruct (is_op o) eqn:E; [|reflexivity]. cbn [andb]. 
    cbn [base] in Hb. specialize (Hb E). destruct (Nat.leb_spec (precedence c) (precedence o)); [lia|reflexivity].
  - cbn [app pop_higher]. rewrite H1, IH. apply Nat.leb_le in H2. rewrite H2. reflexivity.
Qed.

Lemma pop_paren_pending n ps ops : pending n ps -> pop_paren (ps ++ "("%char :: ops) = (ps, "("%char :: ops).
Proof.
  induction 1 as [|o ps [H1 _] _ IH]; [reflexivity|]. cbn [app pop_paren]. rewrite IH.
  destruct (ceq_spec o "("%char) as [->|]; [discriminate|reflexivity].
Qed.

Lemma stops_app a b : a <> [] -> stops a -> stops (a ++ b).
Proof. destruct a; [contradiction|]. auto. Qed.

Definition adv (b : bst) (is : list instr) (ops : list ascii) : bst := with_ops ops (emit is b).

Lemma adv_adv b i1 o1 i2 o2 : adv (adv b i1 o1) i2 o2 = adv b (i1 ++ i2) o2.
Proof. unfold adv, with_ops, emit; cbn. now rewrite app_assoc. Qed.

Lemma step_op q b c r : is_op c = true -> (c <> "-"%char \/ b_uma b = false) ->
  step q b c r = let (p, s) := pop_higher c (b_ops b) in
                 Ok (adv b (map token_to_opcode p) (c :: s), r).
Proof.
  intros Ho Hm. unfold step.
  destruct (ceq_spec c ","%char) as [->|]; [discriminate|]. rewrite Ho.
  assert (E : ceq c "-"%char && b_uma b = false).
  { destruct Hm as [Hm| ->]; [apply ceq_false in Hm; now rewrite Hm|now rewrite andb_false_r]. }
  rewrite E. reflexivity.
Qed.

Lemma readint_show n rest : (0 <= n)%Z -> stops rest -> readint (show_nat n ++ rest) = Ok (n, rest).
Proof.
  intros Hn Hr. unfold readint. rewrite span_digits_all; auto using show_nat_digits; [|now apply stops_digit].
  destruct (show_nat n) as [|c s] eqn:E; [now apply show_nat_nonempty in E|].
  rewrite <- E, dval_show_nat by auto. reflexivity.
Qed.

Definition fac_reads (f : fac) : Prop := forall q b rest,
  fac_ok f -> ready q b -> b_um b = false -> (b_uma b = false \/ fac_nosub f) -> stops rest ->
  run q b (fac_text f ++ rest) = run q (emit (fac_code f) b) rest.
Definition reads (n : nat) (tx : text) (code : list instr) (ok nosub : Prop) : Prop := forall q b rest,
  ok -> ready q b -> b_um b = false -> (b_uma b = false \/ nosub) -> stops rest -> base n (b_ops b) ->
  exists ps is, run q b (tx ++ rest) = run q (adv b is (ps ++ b_ops b)) rest /\
    is ++ map token_to_opcode ps = code /\ pending n ps.

Lemma emit_ops is b : emit is b = adv b is (b_ops b).
Proof. reflexivity. Qed.

Lemma mul_char_op o : is_op (mul_char o) = true /\ precedence (mul_char o) = 2%nat /\
  mul_char o <> "-"%char /\ token_to_opcode (mul_char o) = mul_code o /\ mulop_text o = [mul_char o].
Proof. destruct o; repeat split; discriminate. Qed.
Lemma add_char_op o : is_op (add_char o) = true /\ precedence (add_char o) = 1%nat /\
  token_to_opcode (add_char o) = add_code o /\ addop_text o = [add_char o].
Proof. destruct o; repeat split; discriminate. Qed.

Lemma op_stops c r : is_op c = true -> stops (c :: r).
Proof.
  intros H. cbn. split; [|intros ->; discriminate].
  destruct (is_digit c) eqn:D; [|auto]. apply digit_not_op in D. congruence.
Qed.

Lemma pending_weaken n m ps : (m <= n)%nat -> pending n ps -> pending m ps.
Proof. intros H P. unfold pending in *. eapply Forall_impl; [|exact P]. intros a [? ?]. split; [auto|lia]. Qed.

Lemma precedence_le o : (precedence o <= 2)%nat.
Proof. unfold precedence. destruct (_ || _); [lia|]. destruct (_ || _); lia. Qed.

(** A factor after a multiplication operator. *)
Lemma expressions_read :
  (forall f, fac_reads f) /\
  (forall t, reads 2 (term_text t) (term_code t) (term_ok t) (term_nosub t)) /\
  (forall e, reads 1 (exp_text e) (exp_code e) (exp_ok e) (exp_nosub e)).
Proof.
  apply syntax_ind.
  - (* literal *)
    intros l q b rest Hok Hr Hu _ Hs. cbn [fac_text fac_code fac_ok] in *.
    rewrite run_lit; auto; [|congruence]. unfold push_num. now rewrite Hu.
  - (* variable *)
    intros n q b rest Hok Hr Hu _ Hs. cbn [fac_text fac_code fac_ok] in *.
    change ((T "$" ++ show_nat n) ++ rest) with ("$"%char :: show_nat n ++ rest).
    rewrite run_cons. unfold step. 
    change (ceq "$" ",") with false. change (is_op "$") with false. change (ceq "$" "(") with false.
    change (ceq "$" ")") with false. change (ceq "$" "$") with true. cbv iota.
    rewrite readint_show by auto. cbn [bind].
    assert (E : q && negb (b_lhs_found b) = false).
    { unfold ready in Hr. destruct q; [now rewrite Hr|reflexivity]. }
    rewrite E. reflexivity.
  - (* parentheses *)
    intros e IH q b rest Hok Hr Hu Hm Hs. cbn [fac_text fac_code fac_ok fac_nosub] in *.
    replace ((T "(" ++ exp_text e ++ T ")") ++ rest) with ("("%char :: exp_text e ++ ")"%char :: rest)
      by (cbn; now rewrite <- app_assoc).
    rewrite run_cons.
    assert (S1 : step q b "("%char (exp_text e ++ ")"%char :: rest)
                 = Ok (with_ops ("("%char :: b_ops b) b, exp_text e ++ ")"%char :: rest)) by reflexivity.
    rewrite S1. cbn [bind].
    destruct (IH q (with_ops ("("%char :: b_ops b) b) (")"%char :: rest)) as (ps & is & E & Hc & Hp); auto.
    { split; [reflexivity|discriminate]. }
    { cbn. discriminate. }
    rewrite E, run_cons.
    assert (S2 : step q (adv (with_ops ("("%char :: b_ops b) b) is (ps ++ "("%char :: b_ops b)) ")"%char rest
                 = Ok (emit (exp_code e) b, rest)).
    { unfold step. change (ceq ")" ",") with false. change (is_op ")") with false.
      change (ceq ")" "(") with false. change (ceq ")" ")") with true. cbv iota.
      cbn [adv with_ops b_ops]. rewrite (pop_paren_pending 1) by auto.
      rewrite <- Hc. unfold adv, with_ops, emit. cbn. now rewrite app_assoc. }
    cbn [with_ops b_ops] in *. rewrite S2. reflexivity.
  - (* a factor is a term *)
    intros f IH q b rest Hok Hr Hu Hm Hs Hb. cbn [term_text term_code term_ok term_nosub] in *.
    exists [], (fac_code f). rewrite IH by auto. rewrite emit_ops, app_nil_r. split; [reflexivity|].
    split; [reflexivity|constructor].
  - (* product *)
    intros t IHt o f IHf q b rest [Ht Hf] Hr Hu Hm Hs Hb. cbn [term_text term_code term_nosub] in *.
    destruct (mul_char_op o) as (O1 & O2 & O3 & O4 & O5). rewrite O5.
    rewrite <- app_assoc. cbn [app].
    destruct (IHt q b (mul_char o :: fac_text f ++ rest)) as (ps & is & E & Hc & Hp); auto.
    { tauto. } { now apply op_stops. }
    exists [mul_char o], (is ++ map token_to_opcode ps ++ fac_code f).
    rewrite E, run_cons, step_op by auto.
    cbn [adv with_ops b_ops]. rewrite pop_higher_pending by (rewrite O2; auto). cbn [bind].
    fold (adv b is (ps ++ b_ops b)).
    rewrite IHf; auto.
    2:{ tauto. }
    rewrite emit_ops, !adv_adv. cbn [adv with_ops b_ops app]. rewrite <- !app_assoc.
    split; [reflexivity|]. rewrite <- Hc. cbn [map]. rewrite O4, <- !app_assoc. split; [reflexivity|].
    constructor; [|constructor]. split; auto; lia.
  - (* a term is an expression *)
    intros t IH q b rest Hok Hr Hu Hm Hs Hb. cbn [exp_text exp_code exp_ok exp_nosub] in *.
    destruct (IH q b rest) as (ps & is & E & Hc & Hp); auto.
    { destruct (b_ops b) as [|o ops]; cbn in *; [auto|]. intros X. specialize (Hb X). lia. }
    exists ps, is. split; [auto|]. split; [auto|]. eapply pending_weaken; [|eauto]; lia.
  - (* sum *)
    intros e IHe o t IHt q b rest [He Ht] Hr Hu Hm Hs Hb. cbn [exp_text exp_code exp_nosub] in *.
    destruct (add_char_op o) as (O1 & O2 & O4 & O5). rewrite O5.
    rewrite <- app_assoc. cbn [app].
    destruct (IHe q b (add_char o :: term_text t ++ rest)) as (ps & is & E & Hc & Hp); auto.
    { tauto. } { now apply op_stops. }
    assert (M : add_char o <> "-"%char \/ b_uma b = false).
    { destruct Hm as [Hm|[-> _]]; [auto|]. left. discriminate. }
    rewrite E, run_cons, step_op by (destruct M; auto).
    cbn [adv with_ops b_ops]. rewrite pop_higher_pending by (rewrite O2; auto). cbn [bind].
    fold (adv b is (ps ++ b_ops b)). rewrite adv_adv.
    destruct (IHt q (adv b (is ++ map token_to_opcode ps) (add_char o :: b_ops b)) rest)
      as (ps' & is' & E' & Hc' & Hp'); auto.
    { tauto. }
    { cbn. intros _. lia. }
    rewrite E', adv_adv. cbn [adv with_ops b_ops].
    exists (ps' ++ [add_char o]), ((is ++ map token_to_opcode ps) ++ is').
    rewrite <- !app_assoc. split; [reflexivity|].
    rewrite map_app. cbn [map]. rewrite O4, <- Hc, <- Hc', <- !app_assoc. split; [reflexivity|].
    apply Forall_app. split; [eapply pending_weaken; [|eauto]; lia|].
    constructor; [|constructor]. split; auto; lia.
Qed.

(** ** A leading minus in front of a literal *)

Definition neg_code (c : list instr) : list instr :=
  match c with PUSH (MNum v) :: r => PUSH (MNum (v * - (1))) :: r | _ => c end.

Definition reads_neg (n : nat) (tx : text) (code : list instr) (first : fac) (ok nosub : Prop) : Prop :=
  forall q b rest l,
  ok -> ready q b -> b_um b = true -> (b_uma b = false \/ nosub) -> stops rest -> base n (b_ops b) ->
  first = FLit l -> l <> mkLit (T "0") None ->
  exists ps is, run q b (tx ++ rest) = run q (adv (with_um false b) is (ps ++ b_ops b)) rest /\
    is ++ map token_to_opcode ps = neg_code code /\ pending n ps.

Lemma term_code_first t l : term_first t = FLit l -> exists c, term_code t = PUSH (MNum (lit_value l)) :: c.
Proof.
  induction t as [f|t IH o f]; cbn [term_first term_code].
  - intros ->. cbn. eauto.
  - intros H. destruct (IH H) as [c ->]. cbn. eauto.
Qed.
Lemma exp_code_first e l : exp_first e = FLit l -> exists c, exp_code e = PUSH (MNum (lit_value l)) :: c.
Proof.
  induction e as [t|e IH o t]; cbn [exp_first exp_code].
  - apply term_code_first.
  - intros H. destruct (IH H) as [c ->]. cbn. eauto.
Qed.

Lemma term_reads_neg t : reads_neg 2 (term_text t) (term_code t) (term_first t) (term_ok t) (term_nosub t).
Proof.
  induction t as [f|t IH o f]; intros q b rest l Hok Hr Hu Hm Hs Hb Hf Hl.
  - cbn [term_first] in Hf. subst f. cbn [term_text term_code fac_text fac_code term_ok fac_ok] in *.
    exists [], [PUSH (MNum (lit_value l * - (1)))].
    rewrite run_lit by auto. unfold push_num. rewrite Hu. split; [reflexivity|]. split; [reflexivity|constructor].
  - destruct Hok as [Ht Hff]. cbn [term_text term_code term_nosub term_first] in *.
    destruct (mul_char_op o) as (O1 & O2 & O3 & O4 & O5). rewrite O5.
    rewrite <- app_assoc. cbn [app].
    destruct (IH q b (mul_char o :: fac_text f ++ rest) l) as (ps & is & E & Hc & Hp); auto.
    { tauto. } { now apply op_stops. }
    exists [mul_char o], (is ++ map token_to_opcode ps ++ fac_code f).
    rewrite E, run_cons, step_op by auto.
    cbn [adv with_ops b_ops]. rewrite pop_higher_pending by (rewrite O2; auto). cbn [bind].
    fold (adv (with_um false b) is (ps ++ b_ops b)).
    destruct expressions_read as [F _].
    rewrite F; auto.
    2:{ tauto. }
    rewrite emit_ops, !adv_adv. cbn [adv with_ops b_ops app]. rewrite <- !app_assoc.
    split; [reflexivity|]. destruct (term_code_first t l Hf) as [c Hcc]. rewrite Hcc in *.
    cbn [app neg_code] in *. rewrite app_comm_cons, <- Hc. cbn [map]. rewrite O4, <- !app_assoc. split; [reflexivity|].
    constructor; [|constructor]. split; auto; lia.
Qed.

Lemma exp_reads_neg e : reads_neg 1 (exp_text e) (exp_code e) (exp_first e) (exp_ok e) (exp_nosub e).
Proof.
  induction e as [t|e IH o t]; intros q b rest l Hok Hr Hu Hm Hs Hb Hf Hl.
  - destruct (term_reads_neg t q b rest l) as (ps & is & E & Hc & Hp); auto.
    { destruct (b_ops b) as [|o ops]; cbn in *; [auto|]. intros X. specialize (Hb X). lia. }
    exists ps, is. split; [auto|]. split; [auto|]. eapply pending_weaken; [|eauto]; lia.
  - destruct Hok as [He Ht]. cbn [exp_text exp_code exp_nosub exp_first] in *.
    destruct (add_char_op o) as (O1 & O2 & O4 & O5). rewrite O5.
    rewrite <- app_assoc. cbn [app].
    destruct (IH q b (add_char o :: term_text t ++ rest) l) as (ps & is & E & Hc & Hp); auto.
    { tauto. } { now apply op_stops. }
    assert (M : add_char o <> "-"%char \/ b_uma b = false).
    { destruct Hm as [Hm|[-> _]]; [auto|]. left. discriminate. }
    rewrite E, run_cons, step_op by (destruct M; auto).
    cbn [adv with_ops b_ops]. rewrite pop_higher_pending by (rewrite O2; auto). cbn [bind].
    fold (adv (with_um false b) is (ps ++ b_ops b)). rewrite adv_adv.
    destruct expressions_read as (_ & F & _).
    destruct (F t q (adv (with_um false b) (is ++ map token_to_opcode ps) (add_char o :: b_ops b)) rest)
      as (ps' & is' & E' & Hc' & Hp'); auto.
    { tauto. }
    { cbn. intros _. lia. }
    rewrite E', adv_adv. cbn [adv with_ops b_ops].
    exists (ps' ++ [add_char o]), ((is ++ map token_to_opcode ps) ++ is').
    rewrite <- !app_assoc. split; [reflexivity|].
    destruct (exp_code_first e l Hf) as [c Hcc]. rewrite Hcc in *. cbn [app neg_code] in *.
    rewrite app_comm_cons, <- Hc.
    rewrite map_app. cbn [map]. rewrite O4, <- Hc', <- !app_assoc. split; [reflexivity|].
    apply Forall_app. split; [eapply pending_weaken; [|eauto]; lia|].
    constructor; [|constructor]. split; auto; lia.
Qed.

(** ** Modifiers *)

Definition mod_code (m : modifier) : list instr :=
  if fst m then neg_code (exp_code (snd m)) else exp_code (snd m).

Lemma flush_adv b is ps : b_ops b = [] -> flush (adv b is ps) = emit (is ++ map token_to_opcode ps) b.
Proof. intros H. unfold flush, adv, with_ops, emit. cbn. rewrite H. now rewrite <- app_assoc. Qed.

Lemma step_comma q b r : step q b ","%char r = Ok (with_uma true (flush (with_code_found b)), r).
Proof. reflexivity. Qed.

Lemma mods_text_stops ms : stops (List.concat (map (fun m => T "," ++ mod_text m) ms)).
Proof. destruct ms; cbn; [auto|]. split; [reflexivity|discriminate]. Qed.

(** Read ",m1,m2,..." to the end of a primitive block. *)
Lemma mods_read : forall ms b, Forall mod_ok ms -> ms <> [] -> b_um b = false ->
  exists b', run false b (List.concat (map (fun m => T "," ++ mod_text m) ms)) = Ok b' /\
    b_out (flush b') = b_out (flush b) ++ List.concat (map mod_code ms) /\
    b_code_found b' = true /\ b_code b' = b_code b.
Proof.
  induction ms as [|m ms IH]; intros b Hok Hne Hu; [contradiction|].
  inversion Hok as [|? ? [He [Hns Hng]] Hok']; subst. clear Hok Hne.
  cbn [map List.concat]. change ((T "," ++ mod_text m) ++ List.concat (map (fun m => T "," ++ mod_text m) ms))
    with (","%char :: mod_text m ++ List.concat (map (fun m => T "," ++ mod_text m) ms)).
  rewrite run_cons, step_comma. cbn [bind].
  set (b1 := with_uma true (flush (with_code_found b))).
  set (tl := List.concat (map (fun m => T "," ++ mod_text m) ms)).
  assert (Hst : stops tl) by apply mods_text_stops.
  assert (P : exists ps is u, run false b1 (mod_text m ++ tl) = run false (adv (with_uma u b1) is ps) tl /\
                is ++ map token_to_opcode ps = mod_code m).
  { destruct m as [[|] e]; unfold mod_text, mod_code; cbn [fst snd] in *.
    - destruct (Hng eq_refl) as (l & Hf & Hl).
      replace ((T "-" ++ exp_text e) ++ tl) with ("-"%char :: exp_text e ++ tl) by reflexivity.
      rewrite run_cons.
      replace (step false b1 "-" (exp_text e ++ tl)) with (Ok (with_uma false (with_um true b1), exp_text e ++ tl))
        by reflexivity.
      cbn [bind].
      destruct (exp_reads_neg e false (with_uma false (with_um true b1)) tl l) as (ps & is & E & Hc & _); auto;
        try (now cbn).
      exists ps, is, false. rewrite E. split; [|exact Hc].
      unfold adv, with_um, with_uma, with_ops, emit, b1, flush. cbn. rewrite app_nil_r, Hu. reflexivity.
    - destruct expressions_read as (_ & _ & F).
      destruct (F e false b1 tl) as (ps & is & E & Hc & _); auto; try (now cbn).
      exists ps, is, true. cbn [app]. rewrite E. split; [|exact Hc].
      unfold adv, with_um, with_uma, with_ops, emit, b1, flush. cbn. now rewrite app_nil_r. }
  destruct P as (ps & is & u & E & Hc). rewrite E.
  destruct ms as [|m' ms].
  - exists (adv (with_uma u b1) is ps). unfold tl. cbn [map List.concat]. rewrite run_nil.
    split; [reflexivity|]. rewrite flush_adv by reflexivity. cbn. rewrite app_nil_r, Hc. auto.
  - destruct (IH (adv (with_uma u b1) is ps)) as (b' & E' & O & F & C); auto; [discriminate|].
    exists b'. split; [exact E'|]. split; [|split; [exact F|rewrite C; reflexivity]].
    rewrite O, flush_adv by reflexivity. cbn [map List.concat]. rewrite Hc.
    cbn. now rewrite <- app_assoc.
Qed.

(** ** Blocks *)

Definition block_code (b : block) : list instr :=
  match b with
  | BComment s => [PUSH (MText (strip s)); PRIM 0]
  | BPrim c ms => List.concat (map mod_code ms) ++ [PRIM c]
  | BAssign n e => exp_code e ++ [STORE n]
  end.

Definition clean (s : text) : Prop := ~ In "*"%char s /\ ~ In "="%char s.

Lemma clean_app a b : clean a -> clean b -> clean (a ++ b).
Proof. unfold clean. rewrite !in_app_iff. tauto. Qed.
Lemma clean_digits s : all_digits s = true -> clean s.
Proof. intros H. split; intros X; apply (all_digits_in s _ H) in X; discriminate. Qed.
Lemma clean_char c : c <> "*"%char -> c <> "="%char -> clean [c].
Proof. intros H1 H2. split; intros [X|[]]; congruence. Qed.

Lemma clean_lit l : lit_ok l -> clean (lit_text l).
Proof.
  intros (Hi & Hd & _). destruct l as [i [d|]]; unfold lit_text; cbn [l_int l_dec] in *; apply clean_app.
  - apply clean_digits. now apply digit_string_iff.
  - apply clean_app; [now apply clean_char|]. apply clean_digits. now apply digit_string_iff.
  - apply clean_digits. now apply digit_string_iff.
  - split; auto.
Qed.

Lemma clean_syntax :
  (forall f, fac_ok f -> clean (fac_text f)) /\
  (forall t, term_ok t -> clean (term_text t)) /\
  (forall e, exp_ok e -> clean (exp_text e)).
Proof.
  apply syntax_ind; cbn [fac_ok term_ok exp_ok fac_text term_text exp_text].
  - apply clean_lit.
  - intros n _. apply clean_app; [now apply clean_char|]. apply clean_digits, show_nat_digits.
  - intros e IH H. apply clean_app; [now apply clean_char|]. apply clean_app; [auto|now apply clean_char].
  - auto.
  - intros t IHt o f IHf [H1 H2]. apply clean_app; [auto|]. apply clean_app; [|auto].
    destruct o; now apply clean_char.
  - auto.
  - intros e IHe o t IHt [H1 H2]. apply clean_app; [auto|]. apply clean_app; [|auto].
    destruct o; now apply clean_char.
Qed.

Lemma clean_mods ms : Forall mod_ok ms -> clean (List.concat (map (fun m => T "," ++ mod_text m) ms)).
Proof.
  induction 1 as [|m ms [He _] _ IH]; cbn [map List.concat]; [split; auto|].
  apply clean_app; [|exact IH]. apply clean_app; [now apply clean_char|].
  unfold mod_text. apply clean_app; [destruct (fst m); [now apply clean_char|split; auto]|].
  now apply (proj2 (proj2 clean_syntax)).
Qed.

Lemma show_nat_head n : (1 <= n)%Z -> exists c r, show_nat n = c :: r /\ is_digit c = true /\ c <> "0"%char.
Proof.
  intros H. destruct (show_nat n) as [|c r] eqn:E; [now apply show_nat_nonempty in E|].
  pose proof (show_nat_digits n) as D. rewrite E in D. cbn [all_digits forallb] in D.
  apply andb_prop in D as [D1 D2].
  exists c, r. split; [auto|]. split; [auto|]. intros ->.
  pose proof (dval_show_nat n ltac:(lia)) as V. rewrite E, dval_cons in V.
  change (digit_val "0") with 0%Z in V. pose proof (dval_bound r D2) as B.
  assert (L : List.length (show_nat n) = S (List.length r)) by now rewrite E.
  unfold show_nat in L. rewrite dig_length in L.
  destruct (Z_lt_dec n 10) as [Lt|Ge].
  - assert (ndig n <= 1)%nat by (apply ndig_le; lia). assert (r = []) by (destruct r; [auto|cbn in L; lia]).
    subst r. cbn in V. lia.
  - pose proof (ndig_low n ltac:(lia)) as Lo. rewrite L in Lo.
    replace (Z.of_nat (S (List.length r)) - 1)%Z with (Z.of_nat (List.length r)) in Lo by lia. lia.
Qed.

Lemma read_block_run s : read_block s =
  let q := char_in "="%char s in
  do b <- run q b_init s;
  let b := flush b in
  Ok (b_out b ++ (if negb q && b_code_found b then [PRIM (b_code b)] else [])
              ++ (if q then [STORE (b_lhs b)] else [])).
Proof. reflexivity. Qed.

Lemma read_block_ok b : block_ok b -> read_block (block_text b) = Ok (block_code b).
Proof.
  intros H. rewrite read_block_run. destruct b as [s|c ms|n e]; cbn [block_text block_code block_ok] in *.
  - destruct H as [_ He].
    assert (Q : char_in "="%char (T "0" ++ s) = false).
    { apply char_in_false. intros [X|X]; [discriminate|contradiction]. }
    rewrite Q. cbv zeta. change (T "0" ++ s) with ("0"%char :: s). rewrite run_cons. cbn.
    reflexivity.
  - destruct H as (Hc & Hne & Hms).
    assert (Q : char_in "="%char (show_nat c ++ List.concat (map (fun m => T "," ++ mod_text m) ms)) = false).
    { apply char_in_false. apply clean_app; [apply clean_digits, show_nat_digits|now apply clean_mods]. }
    rewrite Q. cbv zeta. clear Q.
    destruct (show_nat_head c Hc) as (d & r & E & D & D0).
    assert (S1 : run false b_init (show_nat c ++ List.concat (map (fun m => T "," ++ mod_text m) ms))
                 = run false (with_code c b_init) (List.concat (map (fun m => T "," ++ mod_text m) ms))).
    { pose proof (readint_show c (List.concat (map (fun m => T "," ++ mod_text m) ms)) ltac:(lia)
                    (mods_text_stops ms)) as RI.
      rewrite E in *. cbn [app] in *. rewrite run_cons. unfold step.
      destruct (digit_other d D) as (-> & -> & -> & -> & -> & -> & _ & _).
      apply ceq_false in D0. rewrite D0, D. cbn [orb b_init b_code_found negb andb].
      rewrite RI. reflexivity. }
    rewrite S1. destruct (mods_read ms (with_code c b_init)) as (b' & E' & O & F & C); auto.
    rewrite E'. cbn [bind negb andb].
    change (b_code_found (flush b')) with (b_code_found b'). change (b_code (flush b')) with (b_code b').
    rewrite F, O, C. reflexivity.
  - destruct H as (Hn & He & Hns).
    assert (Q : char_in "="%char (T "$" ++ show_nat n ++ T "=" ++ exp_text e) = true).
    { apply char_in_true. rewrite !in_app_iff. right. right. left. now left. }
    rewrite Q. cbv zeta. change (T "$" ++ show_nat n ++ T "=" ++ exp_text e)
      with ("$"%char :: show_nat n ++ "="%char :: exp_text e).
    rewrite run_cons. unfold step.
    change (ceq "$" ",") with false. change (is_op "$") with false. change (ceq "$" "(") with false.
    change (ceq "$" ")") with false. change (ceq "$" "$") with true. cbv iota.
    rewrite readint_show; [|auto|split; [reflexivity|discriminate]]. cbn [bind b_init b_lhs_found negb andb].
    rewrite run_cons.
    change (step true (with_lhs n b_init) "=" (exp_text e)) with (Ok (with_lhs_found (with_lhs n b_init), exp_text e)).
    cbn [bind]. destruct expressions_read as (_ & _ & F).
    destruct (F e true (with_lhs_found (with_lhs n b_init)) []) as (ps & is & E & Hc & _); auto; try (now cbn).
    rewrite app_nil_r in E. unfold b_init in *. rewrite E, run_nil. cbn [bind].
    cbn [b_ops with_lhs_found with_lhs]. rewrite app_nil_r, flush_adv by reflexivity.
    cbn. now rewrite Hc.
Qed.

(** The reader's code for an equation whose right side uses any operators. *)
Lemma read_equation n e : (0 <= n)%Z -> exp_ok e ->
  read_block (T "$" ++ show_nat n ++ T "=" ++ exp_text e) = Ok (exp_code e ++ [STORE n]).
Proof.
  intros Hn He. rewrite read_block_run.
    assert (Q : char_in "="%char (T "$" ++ show_nat n ++ T "=" ++ exp_text e) = true).
    { apply char_in_true. rewrite !in_app_iff. right. right. left. now left. }
    rewrite Q. cbv zeta. change (T "$" ++ show_nat n ++ T "=" ++ exp_text e)
      with ("$"%char :: show_nat n ++ "="%char :: exp_text e).
    rewrite run_cons. unfold step.
    change (ceq "$" ",") with false. change (is_op "$") with false. change (ceq "$" "(") with false.
    change (ceq "$" ")") with false. change (ceq "$" "$") with true. cbv iota.
    rewrite readint_show; [|auto|split; [reflexivity|discriminate]]. cbn [bind b_init b_lhs_found negb andb].
    rewrite run_cons.
    change (step true (with_lhs n b_init) "=" (exp_text e)) with (Ok (with_lhs_found (with_lhs n b_init), exp_text e)).
    cbn [bind]. destruct expressions_read as (_ & _ & F).
    destruct (F e true (with_lhs_found (with_lhs n b_init)) []) as (ps & is & E & Hc & _); auto; try (now cbn).
    rewrite app_nil_r in E. unfold b_init in *. rewrite E, run_nil. cbn [bind].
    cbn [b_ops with_lhs_found with_lhs]. rewrite app_nil_r, flush_adv by reflexivity.
    cbn. now rewrite Hc.
Qed.

Lemma split_on_app c w s : ~ In c w -> split_on c (w ++ c :: s) = w :: split_on c s.
Proof.
  induction w as [|x w IH]; intros H.
  - cbn [app split_on]. destruct (split_on c s) eqn:E; [|now rewrite ceq_refl].
    exfalso. destruct s; cbn [split_on] in E; [discriminate|].
    destruct (split_on c s); [discriminate|]. destruct (ceq a c); discriminate.
  - cbn [app split_on]. rewrite IH by (intros X; apply H; now right).
    destruct (ceq_spec x c) as [->|]; [|reflexivity]. exfalso. apply H. now left.
Qed.

Lemma block_no_star b : block_ok b -> ~ In "*"%char (block_text b).
Proof.
  destruct b as [s|c ms|n e]; cbn [block_ok block_text].
  - intros [H _] [X|X]; [discriminate|contradiction].
  - intros (_ & _ & H). apply clean_app; [apply clean_digits, show_nat_digits|now apply clean_mods].
  - intros (_ & H & _). rewrite !in_app_iff. intros [X|[X|[X|X]]].
    + destruct X as [X|[]]; discriminate.
    + now apply (clean_digits _ (show_nat_digits n)) in X.
    + destruct X as [X|[]]; discriminate.
    + now apply (proj2 (proj2 clean_syntax)) in X.
Qed.

Lemma read_macro_ok bs : Forall block_ok bs ->
  read_macro (macro_text bs) = Ok (List.concat (map block_code bs)).
Proof.
  intros H. unfold read_macro.
  assert (E : mapM read_block (split_on "*"%char (macro_text bs)) = Ok (map block_code bs ++ [[]])).
  { induction H as [|b bs Hb _ IH]; [reflexivity|].
    assert (C : macro_text (b :: bs) = block_text b ++ "*"%char :: macro_text bs)
      by (unfold macro_text; cbn [map List.concat]; rewrite <- app_assoc; reflexivity).
    rewrite C, split_on_app by now apply block_no_star. cbn [mapM]. rewrite read_block_ok by auto.
    cbn [bind]. rewrite IH. reflexivity. }
  rewrite E. cbn [bind]. rewrite concat_app. cbn. now rewrite app_nil_r.
Qed.

(** ** Evaluation *)

Definition dict_env (d : dict) (env : Z -> Qc) : Prop := forall n, dict_get n d = MNum (env n).

(** The value the evaluator computes: a difference is always 0. *)
Section BVal.
Variable env : Z -> Qc.
Fixpoint fac_bval (f : fac) : option Qc :=
  match f with FLit l => Some (lit_value l) | FVar n => Some (env n) | FPar e => exp_bval e end
with term_bval (t : term) : option Qc :=
  match t with
  | TFac f => fac_bval f
  | TMul t o f => match term_bval t, fac_bval f with Some a, Some b => apply_mul o a b | _, _ => None end
  end
with exp_bval (e : exp) : option Qc :=
  match e with
  | ETerm t => term_bval t
  | EAdd e o t => match exp_bval e, term_bval t with
                  | Some a, Some b => Some (match o with Plus => a + b | Minus => a - a end)
                  | _, _ => None end
  end.

Lemma bval_nosub :
  (forall f, fac_nosub f -> fac_bval f = fac_value env f) /\
  (forall t, term_nosub t -> term_bval t = term_value env t) /\
  (forall e, exp_nosub e -> exp_bval e = exp_value env e).
Proof.
  apply syntax_ind; cbn [fac_nosub term_nosub exp_nosub fac_bval term_bval exp_bval fac_value term_value exp_value]; auto.
  - intros t IHt o f IHf [H1 H2]. now rewrite IHt, IHf.
  - intros e IHe o t IHt (-> & H1 & H2). now rewrite IHe, IHt.
Qed.

Definition runs (code : list instr) (v : option Qc) : Prop := forall k d y rest, dict_env d env ->
  exec (k, d, y) (code ++ rest) = match v with
                                  | Some v => exec (MNum v :: k, d, y) rest
                                  | None => Err ZeroDivisionError
                                  end.

Lemma code_runs :
  (forall f, runs (fac_code f) (fac_bval f)) /\
  (forall t, runs (term_code t) (term_bval t)) /\
  (forall e, runs (exp_code e) (exp_bval e)).
Proof.
  apply syntax_ind; cbn [fac_code term_code exp_code fac_bval term_bval exp_bval]; auto.
  - intros l k d y rest H. reflexivity.
  - intros n k d y rest H. cbn. now rewrite H.
  - intros t IHt o f IHf k d y rest H. rewrite <- !app_assoc, IHt by auto.
    destruct (term_bval t) as [a|]; [|reflexivity]. rewrite IHf by auto.
    destruct (fac_bval f) as [b|]; [|reflexivity]. destruct o; cbn; auto.
    destruct (qceq b 0); reflexivity.
  - intros e IHe o t IHt k d y rest H. rewrite <- !app_assoc, IHe by auto.
    destruct (exp_bval e) as [a|]; [|reflexivity]. rewrite IHt by auto.
    destruct (term_bval t) as [b|]; [|reflexivity]. destruct o; reflexivity.
Qed.

(** Negating the first literal negates the first term. *)
Lemma neg_runs_term t l : term_first t = FLit l ->
  runs (neg_code (term_code t)) (option_map Qcopp (term_bval t)).
Proof.
  induction t as [f|t IH o f]; cbn [term_first]; intros Hf k d y rest H.
  - subst f. cbn. f_equal. f_equal. f_equal. f_equal. f_equal. ring.
  - cbn [term_code term_bval]. specialize (IH Hf).
    destruct (term_code_first t l Hf) as [c Hc]. rewrite Hc in *. cbn [app neg_code] in *.
    transitivity (exec (k, d, y) ((PUSH (MNum (lit_value l * - (1))) :: c) ++ fac_code f ++ [mul_code o] ++ rest));
      [cbn [app]; now rewrite <- !app_assoc|].
    rewrite IH by auto. destruct (term_bval t) as [a|]; [|reflexivity]. cbn [option_map].
    rewrite (proj1 code_runs) by auto. destruct (fac_bval f) as [b|]; [|reflexivity].
    destruct o; cbn.
    + f_equal. f_equal. f_equal. f_equal. f_equal. ring.
    + f_equal. f_equal. f_equal. f_equal. f_equal. ring.
    + destruct (qceq b 0); [reflexivity|]. cbn. f_equal. f_equal. f_equal. f_equal. f_equal.
      unfold Qcdiv. ring.
Qed.

Lemma neg_runs_exp e l : exp_first e = FLit l -> exp_nosub e ->
  runs (neg_code (exp_code e)) (neg_value env e).
Proof.
  induction e as [t|e IH o t]; cbn [exp_first exp_nosub]; intros Hf Hn.
  - cbn [exp_code neg_value]. destruct bval_nosub as (_ & B & _). rewrite <- B by auto.
    eapply neg_runs_term; eauto.
  - destruct Hn as (-> & Hn & Ht). intros k d y rest H. specialize (IH Hf Hn).
    cbn [exp_code neg_value]. destruct (exp_code_first e l Hf) as [c Hc]. rewrite Hc in *. cbn [app neg_code] in *.
    transitivity (exec (k, d, y) ((PUSH (MNum (lit_value l * - (1))) :: c) ++ term_code t ++ [add_code Plus] ++ rest));
      [cbn [app]; now rewrite <- !app_assoc|].
    rewrite IH by auto. destruct (neg_value env e) as [a|]; [|reflexivity].
    rewrite (proj1 (proj2 code_runs)) by auto. destruct bval_nosub as (_ & B & _). rewrite B by auto.
    destruct (term_value env t) as [b|]; reflexivity.
Qed.

Lemma mod_runs m : mod_ok m -> runs (mod_code m) (mod_value env m).
Proof.
  intros (He & Hn & Hg). unfold mod_code, mod_value. destruct (fst m).
  - destruct (Hg eq_refl) as (l & Hl & _). eapply neg_runs_exp; eauto.
  - destruct bval_nosub as (_ & _ & B). rewrite <- B by auto. apply code_runs.
Qed.

Lemma mods_run ms : Forall mod_ok ms -> forall k d y rest, dict_env d env ->
  exec (k, d, y) (List.concat (map mod_code ms) ++ rest) =
  match all_some (map (mod_value env) ms) with
  | Some vs => exec (rev (map MNum vs) ++ k, d, y) rest
  | None => Err ZeroDivisionError
  end.
Proof.
  induction 1 as [|m ms Hm _ IH]; intros k d y rest H; [reflexivity|].
  cbn [map List.concat all_some]. rewrite <- app_assoc, mod_runs by auto.
  destruct (mod_value env m) as [v|]; [|reflexivity]. rewrite IH by auto.
  destruct (all_some (map (mod_value env) ms)) as [vs|]; [|reflexivity]. cbn [option_map map rev].
  now rewrite <- app_assoc.
Qed.
End BVal.

Lemma dict_env_set d env n v : dict_env d env -> dict_env (dict_set n (MNum v) d) (update env n v).
Proof.
  intros H k. cbn. unfold update. rewrite Z.eqb_sym. destruct (k =? n)%Z; [reflexivity|apply H].
Qed.

Lemma macro_runs : forall bs env d y, Forall block_ok bs -> dict_env d env ->
  match macro_value env bs with
  | Some ps => exists d', exec ([], d, y) (List.concat (map block_code bs)) = Ok ([], d', y ++ ps)
  | None => exec ([], d, y) (List.concat (map block_code bs)) = Err ZeroDivisionError
  end.
Proof.
  induction bs as [|b bs IH]; intros env d y Hok Hd.
  - cbn. exists d. now rewrite app_nil_r.
  - inversion Hok as [|? ? Hb Hbs]; subst. destruct b as [s|c ms|n e]; cbn [macro_value map List.concat block_code].
    + specialize (IH env d (y ++ [(0%Z, [MText (strip s)])]) Hbs Hd).
      destruct (macro_value env bs) as [ps|]; cbn [option_map].
      * destruct IH as [d' E]. exists d'. cbn [app exec exec1 bind rev]. rewrite E, <- app_assoc. reflexivity.
      * cbn [app exec exec1 bind rev]. exact IH.
    + destruct Hb as (_ & _ & Hms). rewrite <- app_assoc.
      specialize (fun vs => IH env d (y ++ [(c, map MNum vs)]) Hbs Hd).
      pose proof (mods_run env ms Hms [] d y ([PRIM c] ++ List.concat (map block_code bs)) Hd) as M.
      rewrite M. destruct (all_some (map (mod_value env) ms)) as [vs|]; [|reflexivity].
      specialize (IH vs). cbn [app exec exec1 bind]. rewrite app_nil_r, rev_involutive.
      destruct (macro_value env bs) as [ps|]; cbn [option_map]; [|exact IH].
      destruct IH as [d' E]. exists d'. rewrite E, <- app_assoc. reflexivity.
    + destruct Hb as (_ & He & Hn). rewrite <- app_assoc.
      rewrite (proj2 (proj2 (code_runs env))) by auto.
      rewrite (proj2 (proj2 (bval_nosub env))) by auto.
      destruct (exp_value env e) as [v|]; [|reflexivity].
      cbn [app exec exec1 bind]. apply IH; auto. now apply dict_env_set.
Qed.

Lemma positional_env vs : dict_env (positional_params vs) (modifier_env vs).
Proof.
  intros n. unfold positional_params, modifier_env.
  assert (G : forall i vs, dict_get n (enumerate_from i vs)
              = MNum (if (n <? i)%Z then 0 else nth (Z.to_nat (n - i)) vs 0)).
  { intros i ws. revert i. induction ws as [|v ws IH]; intros i; cbn [enumerate_from dict_get].
    - destruct (n <? i)%Z; [reflexivity|]. destruct (Z.to_nat (n - i)); reflexivity.
    - destruct (Z.eqb_spec i n) as [->|N].
      + rewrite Z.ltb_irrefl, Z.sub_diag. reflexivity.
      + rewrite IH. destruct (Z.ltb_spec n i), (Z.ltb_spec n (i + 1)); try lia; auto.
        replace (Z.to_nat (n - i)) with (S (Z.to_nat (n - (i + 1)))) by lia. reflexivity. }
  apply G.
Qed.

Lemma macro_meaning_lemma bs vs shared : Forall block_ok bs ->
  exists is, read_macro (macro_text bs) = Ok is /\
    eval_macro shared is (PSeq vs) = match macro_value (modifier_env vs) bs with
                                     | Some ps => Ok (ps, shared)
                                     | None => Err ZeroDivisionError
                                     end.
Proof.
  intros H. exists (List.concat (map block_code bs)). split; [now apply read_macro_ok|].
  cbn [eval_macro]. pose proof (macro_runs bs (modifier_env vs) (positional_params vs) [] H (positional_env vs)) as M.
  destruct (macro_value (modifier_env vs) bs) as [ps|].
  - destruct M as [d' ->]. reflexivity.
  - now rewrite M.
Qed.

(** ** Parentheses *)

Lemma bind_err {A B} (r : res A) (f : A -> res B) e : bind r f = Err e ->
  r = Err e \/ exists a, r = Ok a /\ f a = Err e.
Proof. destruct r; cbn; [eauto|]. intros H. injection H as ->. auto. Qed.

Lemma py_float_err s e : py_float s = Err e -> e = ValueError.
Proof.
  assert (W : forall v r e, with_exponent v r = Err e -> e = ValueError).
  { intros v r e'. unfold with_exponent. destruct r as [|c r]; [discriminate|].
    destruct (ceq c "e"%char || ceq c "E"%char); [|now intros [= <-]].
    set (q := match r with [] => _ | _ => _ end). destruct q as [neg [|d ds]]; [now intros [= <-]|].
    destruct (all_digits (d :: ds)); [discriminate|now intros [= <-]]. }
  assert (U : forall s e, py_float_unsigned s = Err e -> e = ValueError).
  { intros t e'. unfold py_float_unsigned. destruct (span_digits t) as [a [|c r]].
    - destruct a; [|discriminate]. now intros [= <-].
    - destruct (ceq c "."%char).
      + destruct (span_digits r) as [b r2]. destruct (a ++ b); [now intros [= <-]|apply W].
      + destruct a; [now intros [= <-]|apply W]. }
  unfold py_float. destruct (strip s) as [|c r]; [now intros [= <-]|].
  destruct (ceq c "-"%char); [intros H; apply bind_err in H as [H|[a [_ H]]]; [eauto|discriminate]|].
  destruct (ceq c "+"%char); apply U.
Qed.

Lemma readint_err s e : readint s = Err e -> e = ValueError.
Proof. unfold readint. destruct (span_digits s) as [[|c a] r]; [|discriminate]. now intros [= <-]. Qed.

Lemma readfloat_err s e : readfloat s = Err e -> e = ValueError.
Proof.
  unfold readfloat. destruct (span_num s) as [a r]. destruct (teq a (T ".")); [discriminate|].
  intros H. apply bind_err in H as [H|[v [_ H]]]; [now apply py_float_err in H|discriminate].
Qed.

Lemma span_digits_chars s a r : span_digits s = (a, r) -> forall c, In c a -> is_digit c = true.
Proof.
  revert a r. induction s as [|x s IH]; cbn [span_digits]; intros a r H c Hc.
  - injection H as <- <-. destruct Hc.
  - destruct (is_digit x) eqn:D; [|injection H as <- <-; destruct Hc].
    destruct (span_digits s) as [a' r'] eqn:E. injection H as <- <-. destruct Hc as [<-|Hc]; [auto|]. eauto.
Qed.
Lemma span_num_chars s a r : span_num s = (a, r) -> forall c, In c a -> is_digit c || ceq c "."%char = true.
Proof.
  revert a r. induction s as [|x s IH]; cbn [span_num]; intros a r H c Hc.
  - injection H as <- <-. destruct Hc.
  - destruct (is_digit x || ceq x "."%char) eqn:D; [|injection H as <- <-; destruct Hc].
    destruct (span_num s) as [a' r'] eqn:E. injection H as <- <-. destruct Hc as [<-|Hc]; [auto|]. eauto.
Qed.

(** Characters other than parentheses and commas do not matter for matching. *)
Definition plain (c : ascii) : Prop := c <> "("%char /\ c <> ")"%char /\ c <> ","%char.
Lemma unmatched_plain a : forall d r, Forall plain a -> unmatched d (a ++ r) = unmatched d r.
Proof.
  induction a as [|c a IH]; intros d r H; [reflexivity|]. inversion H as [|? ? (H1 & H2 & H3) Ha]; subst.
  cbn [app unmatched]. apply ceq_false in H1, H2, H3. rewrite H1, H2, H3. now apply IH.
Qed.
Lemma digit_plain c : is_digit c = true -> plain c.
Proof. intros H. repeat split; intros ->; discriminate. Qed.
Lemma num_plain c : is_digit c || ceq c "."%char = true -> plain c.
Proof.
  intros H. apply orb_prop in H as [H|H]; [now apply digit_plain|]. apply ceq_true in H. subst.
  repeat split; discriminate.
Qed.

Lemma readint_split s n r : readint s = Ok (n, r) -> exists a, s = a ++ r /\ Forall plain a.
Proof.
  unfold readint. destruct (span_digits s) as [a b] eqn:E. pose proof (span_digits_chars _ _ _ E) as C.
  apply span_digits_length in E. destruct a as [|x a]; [discriminate|]. intros H. apply ok_inj in H.
  injection H as _ <-. exists (x :: a). split; [auto|]. apply Forall_forall. intros c Hc. apply digit_plain; auto.
Qed.
Lemma readfloat_split s n r : readfloat s = Ok (n, r) -> exists a, s = a ++ r /\ Forall plain a.
Proof.
  unfold readfloat. destruct (span_num s) as [a b] eqn:E. pose proof (span_num_chars _ _ _ E) as C.
  apply span_num_app in E. intros H.
  assert (b = r) as <-.
  { destruct (teq a (T ".")); [apply ok_inj in H; now injection H|].
    destruct (py_float a); [|discriminate]. cbn in H. apply ok_inj in H. now injection H. }
  exists a. split; [auto|]. apply Forall_forall. intros c Hc. apply num_plain; auto.
Qed.

Fixpoint opens (ops : list ascii) : nat :=
  match ops with [] => 0 | o :: r => if ceq o "("%char then S (opens r) else opens r end.

Lemma pop_higher_opens c ops p q : pop_higher c ops = (p, q) -> opens q = opens ops.
Proof.
  revert p q. induction ops as [|o ops IH]; cbn [pop_higher]; intros p q H; [now injection H as <- <-|].
  destruct (is_op o && (precedence c <=? precedence o)%nat) eqn:E; [|now injection H as <- <-].
  destruct (pop_higher c ops) as [p' q'] eqn:P. injection H as <- <-. cbn [opens].
  destruct (ceq_spec o "("%char) as [->|]; [discriminate|]. eauto.
Qed.
Lemma pop_paren_opens ops : forall p q, pop_paren ops = (p, q) ->
  match opens ops with O => q = [] | S d => exists q', q = "("%char :: q' /\ opens q' = d end.
Proof.
  induction ops as [|o ops IH]; cbn [pop_paren opens]; intros p q H; [now injection H as <- <-|].
  destruct (ceq_spec o "("%char) as [->|N].
  - injection H as <- <-. eauto.
  - destruct (pop_paren ops) as [p' q'] eqn:P. injection H as <- <-. exact (IH _ _ eq_refl).
Qed.

(** In a block that is not a comment, an unmatched ')' is a ValueError. *)
Lemma run_unmatched q : forall n s b, (List.length s < n)%nat -> ready q b \/ q = true ->
  unmatched (opens (b_ops b)) s = true -> run q b s = Err ValueError.
Proof.
  induction n as [|n IH]; intros s b Hn Hr Hu; [lia|].
  destruct s as [|c r]; [discriminate|]. rewrite run_cons. cbn [List.length] in Hn. cbn [unmatched] in Hu.
  unfold step.
  assert (NC : negb q && negb (b_code_found b) = false).
  { destruct Hr as [Hr| ->]; [|reflexivity]. unfold ready in Hr. destruct q; [reflexivity|now rewrite Hr]. }
  destruct (ceq_spec c ","%char) as [->|N1].
  { cbn [ceq Ascii.eqb] in Hu. cbn [bind]. apply IH; [lia| |exact Hu].
    destruct Hr as [Hr| ->]; [left|now right]. unfold ready in *. destruct q; [exact Hr|reflexivity]. }
  destruct (is_op c) eqn:O.
  { assert (P : unmatched (opens (b_ops b)) r = true).
    { destruct (ceq_spec c "("%char) as [->|]; [discriminate|]. destruct (ceq_spec c ")"%char) as [->|]; [discriminate|].
      destruct (ceq_spec c ","%char) as [->|]; [congruence|exact Hu]. }
    destruct (ceq c "-"%char && b_uma b).
    - cbn [bind]. apply IH; [lia|exact Hr|exact P].
    - destruct (pop_higher c (b_ops b)) as [p s] eqn:E. cbn [bind]. apply IH; [lia|exact Hr|].
      cbn [with_ops b_ops opens]. destruct (ceq_spec c "("%char) as [->|]; [discriminate|].
      now rewrite (pop_higher_opens _ _ _ _ E). }
  destruct (ceq_spec c "("%char) as [->|N2].
  { cbn [bind]. apply IH; [lia|exact Hr|exact Hu]. }
  destruct (ceq_spec c ")"%char) as [->|N3].
  { destruct (pop_paren (b_ops b)) as [p s] eqn:E. apply pop_paren_opens in E.
    destruct (opens (b_ops b)) as [|d] eqn:D; [now subst s|].
    destruct E as (s' & -> & E). cbn [bind]. apply IH; [lia|exact Hr|]. cbn [with_ops b_ops]. now rewrite E. }
  assert (Hu' : unmatched (opens (b_ops b)) r = true).
  { destruct (ceq_spec c ","%char) as [->|]; [congruence|exact Hu]. }
  destruct (ceq_spec c "$"%char) as [->|N4].
  { destruct (readint r) as [[v r']|e] eqn:E; [|apply readint_err in E; now subst]. cbn [bind].
    destruct (readint_split _ _ _ E) as (a & -> & Pa). rewrite unmatched_plain in Hu' by auto.
    rewrite app_length in Hn.
    destruct (q && negb (b_lhs_found b)); cbn [bind]; apply IH; auto; lia. }
  destruct (ceq_spec c "="%char) as [->|N5].
  { cbn [bind]. apply IH; [lia| |exact Hu']. destruct Hr as [Hr| ->]; [left|now right].
    unfold ready in *. destruct q; [reflexivity|exact Hr]. }
  destruct (ceq_spec c "0"%char) as [->|N6].
  { rewrite NC. destruct r as [|x r]; [discriminate|].
    destruct (ceq x "."%char); cbn [bind]; apply IH; auto; lia. }
  destruct (is_digit c || ceq c "."%char) eqn:D.
  - rewrite NC. destruct (readfloat (c :: r)) as [[v r']|e] eqn:E; [|apply readfloat_err in E; now subst].
    cbn [bind]. destruct (readfloat_split _ _ _ E) as (a & Ea & Pa).
    assert (Hu2 : unmatched (opens (b_ops b)) (a ++ r') = true).
    { rewrite <- Ea. cbn [unmatched]. apply ceq_false in N1, N2, N3. now rewrite N1, N2, N3. }
    rewrite unmatched_plain in Hu2 by auto.
    assert (L : (List.length r' <= List.length r)%nat).
    { assert (S : step q (with_code_found (with_lhs_found b)) c r
                  = Ok (push_num v (with_code_found (with_lhs_found b)), r')).
      { apply step_number; [now destruct q| |exact E].
        apply orb_prop in D as [D|D]; [left|right; now apply ceq_true]. split; auto. }
      now apply step_shrinks in S. }
    destruct (b_um b); apply IH; auto; lia.
  - cbn [bind]. apply IH; auto; lia.
Qed.

Lemma C16_reject_equation s : In "="%char s -> unmatched 0 s = true -> read_block s = Err ValueError.
Proof.
  intros Hq Hu. rewrite read_block_run. apply char_in_true in Hq. rewrite Hq. cbv zeta.
  rewrite (run_unmatched true (S (List.length s))); auto.
Qed.
Lemma C16_reject_primitive c tail : (1 <= c)%Z -> unmatched 0 tail = true ->
  read_block (show_nat c ++ T "," ++ tail) = Err ValueError.
Proof.
  intros Hc Hu. destruct (char_in "="%char (show_nat c ++ T "," ++ tail)) eqn:Q.
  { apply C16_reject_equation; [now apply char_in_true|].
    rewrite unmatched_plain; [exact Hu|]. apply Forall_forall. intros x Hx. apply digit_plain.
    eapply all_digits_in; [apply show_nat_digits|eauto]. }
  rewrite read_block_run, Q. cbv zeta.
  destruct (show_nat_head c Hc) as (d & r & E & D & D0).
  assert (S1 : run false b_init (show_nat c ++ T "," ++ tail) = run false (with_code c b_init) (T "," ++ tail)).
  { pose proof (readint_show c (T "," ++ tail) ltac:(lia) ltac:(split; [reflexivity|discriminate])) as RI.
    rewrite E in *. cbn [app] in *. rewrite run_cons. unfold step.
    destruct (digit_other d D) as (-> & -> & -> & -> & -> & -> & _ & _).
    apply ceq_false in D0. rewrite D0, D. cbn [orb b_init b_code_found negb andb].
    rewrite RI. reflexivity. }
  rewrite S1. change (T "," ++ tail) with (","%char :: tail). rewrite run_cons, step_comma. cbn [bind].
  rewrite (run_unmatched false (S (List.length tail))); auto. now left.
Qed.

(** *** Balanced parentheses never cause a failure *)

Definition blank (c : ascii) : ascii := if ceq c "("%char || ceq c ")"%char then " "%char else c.
Lemma no_parens_map s : no_parens s = map blank s.
Proof. reflexivity. Qed.

Lemma blank_digit c : is_digit (blank c) = is_digit c.
Proof.
  unfold blank. destruct (ceq_spec c "("%char) as [->|]; [reflexivity|].
  destruct (ceq_spec c ")"%char) as [->|]; reflexivity.
Qed.
Lemma blank_digit_id c : is_digit c = true -> blank c = c.
Proof. intros H. unfold blank. now rewrite !digit_neq by (auto; reflexivity). Qed.
Lemma blank_eq c x : x <> " "%char -> x <> "("%char -> x <> ")"%char -> ceq (blank c) x = ceq c x.
Proof.
  intros H1 H2 H3. unfold blank. destruct (ceq_spec c "("%char) as [->|]; cbn [orb].
  { now rewrite (proj2 (ceq_false " "%char x)), (proj2 (ceq_false "("%char x)) by congruence. }
  destruct (ceq_spec c ")"%char) as [->|]; [|reflexivity].
  now rewrite (proj2 (ceq_false " "%char x)), (proj2 (ceq_false ")"%char x)) by congruence.
Qed.

Lemma span_digits_blank s : span_digits (no_parens s) = let (a, r) := span_digits s in (a, no_parens r).
Proof.
  rewrite !no_parens_map. induction s as [|c s IH]; [reflexivity|]. cbn [map span_digits].
  rewrite blank_digit. destruct (is_digit c) eqn:D; [|reflexivity]. rewrite IH.
  destruct (span_digits s) as [a r]. now rewrite blank_digit_id.
Qed.
Lemma span_num_blank s : span_num (no_parens s) = let (a, r) := span_num s in (a, no_parens r).
Proof.
  rewrite !no_parens_map. induction s as [|c s IH]; [reflexivity|]. cbn [map span_num].
  rewrite blank_digit, blank_eq by discriminate. destruct (is_digit c || ceq c "."%char) eqn:D; [|reflexivity]. rewrite IH.
  destruct (span_num s) as [a r]. f_equal. f_equal. apply orb_prop in D as [D|D]; [now apply blank_digit_id|].
  apply ceq_true in D. now subst.
Qed.
Lemma readint_blank s : readint (no_parens s) = rmap (fun p => (fst p, no_parens (snd p))) (readint s).
Proof. unfold readint. rewrite span_digits_blank. destruct (span_digits s) as [[|c a] r]; reflexivity. Qed.
Lemma readfloat_blank s : readfloat (no_parens s) = rmap (fun p => (fst p, no_parens (snd p))) (readfloat s).
Proof.
  unfold readfloat. rewrite span_num_blank. destruct (span_num s) as [a r].
  destruct (teq a (T ".")); [reflexivity|]. destruct (py_float a); reflexivity.
Qed.

(** Same flags. *)
Definition same (b1 b2 : bst) : Prop :=
  b_lhs_found b1 = b_lhs_found b2 /\ b_code_found b1 = b_code_found b2 /\
  b_uma b1 = b_uma b2 /\ b_um b1 = b_um b2.

Lemma run_balanced q : forall n s b1 b2 b2', (List.length s < n)%nat -> same b1 b2 ->
  unmatched (opens (b_ops b1)) s = false -> run q b2 (no_parens s) = Ok b2' -> exists b1', run q b1 s = Ok b1'.
Proof.
  induction n as [|n IH]; intros s b1 b2 b2' Hn Hsame Hu Hrun; [lia|].
  destruct s as [|c r]; [exists b1; reflexivity|]. rewrite run_cons. cbn [List.length] in Hn. cbn [unmatched] in Hu.
  change (no_parens (c :: r)) with (blank c :: no_parens r) in Hrun. rewrite run_cons in Hrun.
  pose proof Hsame as (S1 & S2 & S3 & S4).
  destruct (ceq_spec c "("%char) as [->|N2].
  { cbn in Hrun. cbn. eapply (IH r _ b2); [lia| |exact Hu|exact Hrun]. exact Hsame. }
  destruct (ceq_spec c ")"%char) as [->|N3].
  { destruct (opens (b_ops b1)) as [|d] eqn:D; [discriminate|].
    unfold step. change (ceq ")" ",") with false. change (is_op ")") with false.
    change (ceq ")" "(") with false. change (ceq ")" ")") with true. cbv iota.
    destruct (pop_paren (b_ops b1)) as [p s] eqn:E. apply pop_paren_opens in E. rewrite D in E.
    destruct E as (s' & -> & E). cbn [bind]. cbn in Hrun.
    eapply (IH r _ b2); [lia| | |exact Hrun]; [exact Hsame|]. cbn [with_ops b_ops]. now rewrite E. }
  assert (B : blank c = c) by (unfold blank; apply ceq_false in N2, N3; now rewrite N2, N3).
  rewrite B in Hrun. unfold step in *.
  destruct (ceq_spec c ","%char) as [->|N1].
  { cbn [bind] in *. eapply IH; [| |exact Hu|exact Hrun]; [lia|].
    unfold same; cbn; now repeat split. }
  destruct (is_op c) eqn:O.
  { rewrite S3. destruct (ceq c "-"%char && b_uma b2).
    - cbn [bind] in *. eapply IH; [| |exact Hu|exact Hrun]; [lia|]. unfold same; cbn; now repeat split.
    - destruct (pop_higher c (b_ops b1)) as [p s] eqn:E, (pop_higher c (b_ops b2)) as [p2 s2]. cbn [bind] in *.
      eapply IH; [| | |exact Hrun]; [lia| |]; [unfold same; cbn; now repeat split|].
      cbn [with_ops b_ops opens]. apply ceq_false in N2. rewrite N2.
      now rewrite (pop_higher_opens _ _ _ _ E). }
  apply ceq_false in N2, N3. rewrite N2, N3 in *.
  destruct (ceq_spec c "$"%char) as [->|N4].
  { rewrite readint_blank in Hrun. destruct (readint r) as [[v r']|e] eqn:E; [|discriminate]. cbn [bind rmap fst snd] in *.
    destruct (readint_split _ _ _ E) as (a & -> & Pa). rewrite unmatched_plain in Hu by auto.
    rewrite app_length in Hn. rewrite S1.
    destruct (q && negb (b_lhs_found b2)); cbn [bind] in *; (eapply IH; [| |exact Hu|exact Hrun]; [lia|]);
      unfold same; cbn; now repeat split. }
  destruct (ceq_spec c "="%char) as [->|N5].
  { cbn [bind] in *. eapply IH; [| |exact Hu|exact Hrun]; [lia|]. unfold same; cbn; now repeat split. }
  rewrite S2. rewrite S4.
  destruct (ceq_spec c "0"%char) as [->|N6].
  { destruct (negb q && negb (b_code_found b2)); [eexists; reflexivity|].
    destruct r as [|x r]; [eexists; reflexivity|].
    change (no_parens (x :: r)) with (blank x :: no_parens r) in Hrun.
    cbv iota in Hrun. rewrite blank_eq in Hrun by discriminate.
    change (blank x :: no_parens r) with (no_parens (x :: r)) in Hrun.
    destruct (ceq x "."%char); cbn [bind] in *; (eapply IH; [| |exact Hu|exact Hrun]; [lia|]);
      unfold same; cbn; now repeat split. }
  destruct (is_digit c || ceq c "."%char) eqn:D.
  - assert (CR : c :: no_parens r = no_parens (c :: r)).
    { change (no_parens (c :: r)) with (blank c :: no_parens r). now rewrite B. }
    rewrite CR, readint_blank, readfloat_blank in Hrun.
    assert (Hu0 : unmatched (opens (b_ops b1)) (c :: r) = false).
    { cbn [unmatched]. rewrite N2, N3. apply ceq_false in N1. now rewrite N1. }
    assert (Sh : forall v r', readint (c :: r) = Ok (v, r') \/ (exists w, readfloat (c :: r) = Ok (w, r')) ->
              (List.length r' <= List.length r)%nat /\ unmatched (opens (b_ops b1)) r' = false).
    { intros v r' Hs.
      assert (X : exists a, c :: r = a ++ r' /\ Forall plain a)
        by (destruct Hs as [Hs|[w Hs]]; [eapply readint_split|eapply readfloat_split]; eauto).
      destruct X as (a & Ea & Pa). rewrite Ea, unmatched_plain in Hu0 by auto. split; [|exact Hu0].
      destruct Hs as [Hs|[w Hs]]; [apply readint_shrinks in Hs; cbn in Hs; lia|].
      assert (S : step q (with_code_found (with_lhs_found b1)) c r
                  = Ok (push_num w (with_code_found (with_lhs_found b1)), r')).
      { apply step_number; [now destruct q| |exact Hs].
        apply orb_prop in D as [D|D]; [left|right; now apply ceq_true]. split; auto. }
      now apply step_shrinks in S. }
    destruct (negb q && negb (b_code_found b2)).
    + destruct (readint (c :: r)) as [[v r']|e] eqn:E; [|discriminate]. cbn [bind rmap fst snd] in *.
      destruct (Sh v r' (or_introl eq_refl)) as [L U].
      eapply IH; [| |exact U|exact Hrun]; [lia|]. unfold same; cbn; now repeat split.
    + destruct (readfloat (c :: r)) as [[v r']|e] eqn:E; [|discriminate]. cbn [bind rmap fst snd] in *.
      destruct (Sh 0%Z r') as [L U]; [eauto|].
      destruct (b_um b2) eqn:UM; rewrite ?UM in Hrun; (eapply IH; [| | |exact Hrun]; [lia| |exact U]);
        unfold same; cbn; repeat split; congruence.
  - cbn [bind] in *. destruct (ceq_spec c ","%char); [congruence|].
    eapply IH; [| |exact Hu|exact Hrun]; [lia|]. exact Hsame.
Qed.

Lemma no_parens_eq s : char_in "="%char (no_parens s) = char_in "="%char s.
Proof.
  rewrite no_parens_map. induction s as [|c s IH]; [reflexivity|]. cbn [map char_in existsb].
  unfold char_in in IH. rewrite IH. f_equal.
  assert (Sy : forall a b, ceq a b = ceq b a).
  { intros a b. destruct (ceq_spec a b), (ceq_spec b a); congruence. }
  rewrite (Sy _ (blank c)), (Sy _ c). apply blank_eq; discriminate.
Qed.

Lemma C16_balanced_lemma s : unmatched 0 s = false -> is_ok (read_block (no_parens s)) = true ->
  is_ok (read_block s) = true.
Proof.
  rewrite !read_block_run, no_parens_eq. cbv zeta. intros Hu Hr.
  destruct (run (char_in "="%char s) b_init (no_parens s)) as [b2|] eqn:E; [|discriminate].
  destruct (run_balanced (char_in "="%char s) (S (List.length s)) s b_init b_init b2) as [b1 E1]; auto.
  { now repeat split. }
  rewrite E1. reflexivity.
Qed.

(** ** Lemmas for the property theorems *)

Lemma C14_lemma n e : (0 <= n)%Z -> exp_ok e ->
  exists code, read_block (T "$" ++ show_nat n ++ T "=" ++ exp_text e) = Ok (code ++ [STORE n]) /\
    forall env d, (forall i, dict_get i d = MNum (env i)) ->
      (exists v, (exp_nosub e -> exp_value env e = Some v) /\
         forall k y rest, exec (k, d, y) (code ++ rest) = exec (MNum v :: k, d, y) rest) \/
      ((exp_nosub e -> exp_value env e = None) /\
         forall k y rest, exec (k, d, y) (code ++ rest) = Err ZeroDivisionError).
Proof.
  intros Hn He. exists (exp_code e). split; [now apply read_equation|]. intros env d Hd.
  destruct (code_runs env) as (_ & _ & R). destruct (bval_nosub env) as (_ & _ & B).
  destruct (exp_bval env e) as [v|] eqn:E.
  - left. exists v. split; [intros H; rewrite <- B; auto|]. intros k y rest. rewrite (R e) by exact Hd. now rewrite E.
  - right. split; [intros H; rewrite <- B; auto|]. intros k y rest. rewrite (R e) by exact Hd. now rewrite E.
Qed.

Lemma exec_app l1 : forall s l2, exec s (l1 ++ l2) = do s' <- exec s l1; exec s' l2.
Proof.
  induction l1 as [|i l1 IH]; intros s l2; [reflexivity|]. cbn [app exec].
  destruct (exec1 s i); [|reflexivity]. apply IH.
Qed.

Lemma C14_no_leak_lemma l1 l2 c s k d y : exec s l1 = Ok (k, d, y) ->
  exec s (l1 ++ PRIM c :: l2) = exec ([], d, y ++ [(c, rev k)]) l2.
Proof. intros H. rewrite exec_app, H. reflexivity. Qed.

Definition one_var (n : Z) : modifier := (false, ETerm (TFac (FVar n))).

Lemma C15_binding_lemma n vs shared c : (0 <= n)%Z -> (1 <= c)%Z ->
  exists is, read_macro (show_nat c ++ T ",$" ++ show_nat n ++ T "*") = Ok is /\
    eval_macro shared is (PSeq vs) = Ok ([(c, [MNum (modifier_env vs n)])], shared).
Proof.
  intros Hn Hc. destruct (macro_meaning_lemma [BPrim c [one_var n]] vs shared) as (is & R & E).
  { constructor; [|constructor]. split; [auto|]. split; [discriminate|]. constructor; [|constructor].
    split; [exact Hn|]. split; [exact I|discriminate]. }
  exists is. split; [|exact E]. rewrite <- R. f_equal. unfold macro_text. cbn [map List.concat block_text].
  unfold mod_text, one_var. cbn [fst snd exp_text term_text fac_text]. rewrite !app_nil_r, <- app_assoc. cbn.
  now rewrite <- ?app_assoc.
Qed.

Lemma C15_scope_lemma n e vs shared : (0 <= n)%Z -> exp_ok e -> exp_nosub e ->
  exists is, read_macro (T "1,$" ++ show_nat n ++ T "*$" ++ show_nat n ++ T "=" ++ exp_text e ++ T "*1,$" ++ show_nat n ++ T "*") = Ok is /\
    eval_macro shared is (PSeq vs) =
    match exp_value (modifier_env vs) e with
    | Some v => Ok ([(1%Z, [MNum (modifier_env vs n)]); (1%Z, [MNum v])], shared)
    | None => Err ZeroDivisionError
    end.
Proof.
  intros Hn He Hs.
  assert (P : block_ok (BPrim 1 [one_var n])).
  { split; [lia|]. split; [discriminate|]. constructor; [|constructor].
    split; [exact Hn|]. split; [exact I|discriminate]. }
  destruct (macro_meaning_lemma [BPrim 1 [one_var n]; BAssign n e; BPrim 1 [one_var n]] vs shared) as (is & R & E).
  { constructor; [exact P|]. constructor; [now split|]. constructor; [exact P|constructor]. }
  exists is. split.
  - rewrite <- R. f_equal. unfold macro_text. cbn [map List.concat block_text].
    unfold mod_text, one_var. cbn [fst snd exp_text term_text fac_text]. rewrite !app_nil_r, <- !app_assoc.
    reflexivity.
  - rewrite E. cbn. destruct (exp_value (modifier_env vs) e) as [v|]; [|reflexivity]. cbn.
    unfold update. now rewrite Z.eqb_refl.
Qed.

Lemma C15_isolated_lemma l vs shared shared' :
  eval_macro shared l (PSeq vs) = rmap (fun p => (fst p, shared)) (eval_macro shared' l (PSeq vs)).
Proof. cbn. destruct (exec ([], positional_params vs, []) l) as [[[k d] y]|]; reflexivity. Qed.

Lemma C60_lemma bs vs shared s : Forall block_ok bs -> ~ In "*"%char s -> ~ In "="%char s ->
  forall bs', Forall block_ok bs' ->
  exists is is', read_macro (macro_text (bs ++ BComment s :: bs')) = Ok is /\ read_macro (macro_text (bs ++ bs')) = Ok is' /\
    rmap (fun p => filter (fun x => negb (fst x =? 0)%Z) (fst p)) (eval_macro shared is (PSeq vs)) =
    rmap (fun p => filter (fun x => negb (fst x =? 0)%Z) (fst p)) (eval_macro shared is' (PSeq vs)).
Proof.
  intros H1 Hs He bs' H2.
  destruct (macro_meaning_lemma (bs ++ BComment s :: bs') vs shared) as (is & R & E).
  { apply Forall_app. split; [auto|]. constructor; [now split|auto]. }
  destruct (macro_meaning_lemma (bs ++ bs') vs shared) as (is' & R' & E').
  { apply Forall_app. now split. }
  exists is, is'. split; [auto|]. split; [auto|]. rewrite E, E'.
  assert (G : forall env, option_map (filter (fun x => negb (fst x =? 0)%Z)) (macro_value env (bs ++ BComment s :: bs'))
            = option_map (filter (fun x => negb (fst x =? 0)%Z)) (macro_value env (bs ++ bs'))).
  { clear. induction bs as [|b bs IH]; intros env.
    - cbn. destruct (macro_value env bs'); reflexivity.
    - destruct b as [t|c ms|n e]; cbn [app macro_value].
      + specialize (IH env). destruct (macro_value env (bs ++ BComment s :: bs')), (macro_value env (bs ++ bs'));
          cbn in *; try discriminate; auto.
      + specialize (IH env). destruct (all_some _); [|reflexivity].
        destruct (macro_value env (bs ++ BComment s :: bs')), (macro_value env (bs ++ bs'));
          cbn in *; try discriminate; auto. injection IH as ->. reflexivity.
      + destruct (exp_value env e); [apply IH|reflexivity]. }
  specialize (G (modifier_env vs)).
  destruct (macro_value _ (bs ++ BComment s :: bs')), (macro_value _ (bs ++ bs')); cbn in *;
    try discriminate; auto. injection G as ->. reflexivity.
Qed.

Lemma C61_lemma c e vs shared l : (1 <= c)%Z -> exp_ok e -> exp_nosub e ->
  exp_first e = FLit l -> l <> mkLit (T "0") None ->
  exists is, read_macro (show_nat c ++ T ",-" ++ exp_text e ++ T "*") = Ok is /\
    eval_macro shared is (PSeq vs) = match neg_value (modifier_env vs) e with
                                     | Some v => Ok ([(c, [MNum v])], shared)
                                     | None => Err ZeroDivisionError
                                     end.
Proof.
  intros Hc He Hn Hf Hl. destruct (macro_meaning_lemma [BPrim c [(true, e)]] vs shared) as (is & R & E).
  { constructor; [|constructor]. split; [auto|]. split; [discriminate|]. constructor; [|constructor].
    split; [exact He|]. split; [exact Hn|]. intros _. eauto. }
  exists is. split.
  - rewrite <- R. f_equal. unfold macro_text. cbn [map List.concat block_text].
    unfold mod_text. cbn [fst snd]. rewrite !app_nil_r, <- !app_assoc. reflexivity.
  - rewrite E. cbn. unfold mod_value. cbn. destruct (neg_value (modifier_env vs) e); reflexivity.
Qed.
