(** Lemmas about the text level (GerberText.v). *)
From Verif Require Import PyBase QcLib NumModel NumSpec NumProofs FmtModel FmtProofs DecimalProofs MacroModel MacroSpec MacroProofs SplitModel Regex GerberText GerberTextSpec.
Open Scope Qc_scope.

(** ** Numbers in coordinate data *)

Definition nohead (p : ascii -> bool) (s : text) : Prop := match s with c :: _ => p c = false | [] => True end.

Definition number_text (t : text) : Prop :=
  exists neg ds, t = (if neg : bool then T "-" else []) ++ ds /\ all_digits ds = true /\ ds <> [].

Lemma first_number t r : number_text t -> nohead is_digit r -> first NUMBER (t ++ r) (t, [], r).
Proof.
  intros (neg & ds & -> & D & N) Hr. unfold NUMBER. rewrite <- app_assoc.
  apply (first_seq (Opt (Cls (one_of "+-"))) (Plus_ is_digit) _ (if neg then T "-" else []) [] (ds ++ r) ds [] r).
  - destruct neg.
    + apply first_opt. apply first_cls. reflexivity.
    + cbn [app]. apply first_opt_skip. destruct ds as [|c ds]; [contradiction|]. cbn [app rm].
      cbn in D. apply andb_prop in D as [D _]. unfold one_of. cbn [T list_ascii_of_string].
      unfold char_in. cbn [existsb]. now rewrite !(digit_neq c) by auto.
  - now apply first_plus.
Qed.

Lemma write_number_text st v : announceable st -> on_grid st v ->
  exists t, write_gerber_value v (p_fmt st) (p_zs st) = Ok t /\ number_text t /\
            parse_gerber_value t (p_fmt st) (p_zs st) = Ok v.
Proof.
  intros [Hz Hf] (k & -> & Hk). destruct (p_fmt st) as [i d]. cbn [fst snd] in *.
  destruct (C01_lemma i d (p_zs st) k Hf Hk) as (t & Hw & Hp). exists t. split; [exact Hw|]. split; [|exact Hp].
  rewrite grid_dec in Hw.
  destruct (Z.eq_dec k 0) as [->|N].
  - unfold write_gerber_value in Hw. rewrite good_precision in Hw by (unfold usable_format in Hf; lia).
    assert (E : qceq (dec 0 d) 0 = true).
    { apply qceq_true. unfold dec. rewrite zq_0. unfold Qcdiv. ring. }
    rewrite E in Hw. apply ok_inj in Hw. subst t. exists false, (T "0"). split; [reflexivity|]. split; [reflexivity|discriminate].
  - assert (Hs : (scaled (dec k d) d < p10 (i + d))%Z) by (rewrite scaled_dec; exact Hk).
    rewrite (write_spec _ i d (p_zs st) Hf Hs) in Hw. rewrite scaled_dec in Hw.
    destruct (Z.eqb_spec (Z.abs k) 0) as [E|E]; [lia|].
    apply ok_inj in Hw. subst t.
    assert (D : all_digits (suppress (p_zs st) (dig (i + d) (Z.abs k))) = true) by (apply suppress_sub, dig_digits).
    assert (NE : suppress (p_zs st) (dig (i + d) (Z.abs k)) <> []).
    { apply suppress_nonempty. rewrite dval_dig, Z.mod_small; [exact E|]. split; [lia|exact Hk]. }
    exists (is_neg (dec k d)), (suppress (p_zs st) (dig (i + d) (Z.abs k))). split; [|auto].
    destruct (is_neg (dec k d)); reflexivity.
Qed.

(** ** Coordinate data *)

(** One optional field: its text and what it captures. *)
Definition field_text (c : string) (o : option text) : text := match o with Some t => T c ++ t | None => [] end.
Definition field_caps (g : string) (o : option text) : caps := match o with Some t => [(T g, t)] | None => [] end.

Lemma first_part (c : ascii) g o r : (match o with Some t => number_text t | None => nohead (ceq c) r end) ->
  nohead is_digit r ->
  first (coord_part (String c EmptyString) g) (field_text (String c EmptyString) o ++ r)
        (field_text (String c EmptyString) o, field_caps g o, r).
Proof.
  intros H Hr. unfold coord_part. destruct o as [t|].
  - apply first_opt. cbn [field_text field_caps]. rewrite <- app_assoc.
    change [(T g, t)] with ([(T g, t)] ++ []).
    apply (first_seq (L (String c EmptyString)) (G g NUMBER) _ (T (String c EmptyString)) [] (t ++ r) t [(T g, t)] r).
    + apply first_lit.
    + apply first_grp. now apply first_number.
  - cbn [field_text app field_caps]. apply first_opt_skip. apply fail_seq_l. destruct r as [|x r]; [reflexivity|].
    cbn in H. cbn. unfold L. cbn. now rewrite H.
Qed.

Lemma number_head t : number_text t -> exists c r, t = c :: r.
Proof. intros (neg & ds & -> & _ & N). destruct neg; cbn; [eauto|]. destruct ds; [contradiction|eauto]. Qed.

Definition opt_text (o : option text) : text := match o with Some t => t | None => [] end.
Definition opt_caps (g : string) (o : option text) : caps := match o with Some t => [(T g, t)] | None => [] end.

Lemma first_function fn r : from_list functions fn -> nohead (ceq "G"%char) r ->
  first (Opt (G "function" COORD_FUNCTION)) (opt_text fn ++ r) (opt_text fn, opt_caps "function" fn, r).
Proof.
  intros H Hr. destruct fn as [t|].
  - cbn in H. repeat (destruct H as [<-|H]; [eexists; reflexivity|]). destruct H.
  - cbn. apply first_opt_skip. destruct r as [|x r]; [reflexivity|]. cbn in Hr. cbn. now rewrite Hr.
Qed.

Lemma first_op op r : from_list operations op -> nohead (ceq "D"%char) r ->
  first (Opt (G "op" COORD_OP)) (opt_text op ++ r) (opt_text op, opt_caps "op" op, r).
Proof.
  intros H Hr. destruct op as [t|].
  - cbn in H. repeat (destruct H as [<-|H]; [eexists; reflexivity|]). destruct H.
  - cbn. apply first_opt_skip. destruct r as [|x r]; [reflexivity|]. cbn in Hr. cbn. now rewrite Hr.
Qed.

Definition coord_text (fn : option text) (tx ty ti tj : option text) (op : option text) : text :=
  opt_text fn ++ field_text "X" tx ++ field_text "Y" ty ++ field_text "I" ti ++ field_text "J" tj ++ opt_text op ++ T "*".
Definition coord_caps (fn : option text) (tx ty ti tj : option text) (op : option text) : caps :=
  opt_caps "op" op ++ field_caps "j" tj ++ field_caps "i" ti ++ field_caps "y" ty ++ field_caps "x" tx ++ opt_caps "function" fn.

Definition opt_number (o : option text) : Prop := match o with Some t => number_text t | None => True end.

Lemma ops_head op : from_list operations op -> opt_text op = [] \/ exists r, opt_text op = "D"%char :: r.
Proof. destruct op as [t|]; cbn; [|auto]. intros H. repeat (destruct H as [<-|H]; [right; eexists; reflexivity|]). destruct H. Qed.

Lemma first_coord fn tx ty ti tj op r : from_list functions fn -> from_list operations op ->
  opt_number tx -> opt_number ty -> opt_number ti -> opt_number tj ->
  re_match COORD_STMT (coord_text fn tx ty ti tj op ++ r) = Some (coord_caps fn tx ty ti tj op, r).
Proof.
  intros Hfn Hop Hx Hy Hi Hj.
  set (s7 := T "*" ++ r). set (s6 := opt_text op ++ s7). set (s5 := field_text "J" tj ++ s6).
  set (s4 := field_text "I" ti ++ s5). set (s3 := field_text "Y" ty ++ s4). set (s2 := field_text "X" tx ++ s3).
  assert (E : coord_text fn tx ty ti tj op ++ r = opt_text fn ++ s2).
  { unfold s2, s3, s4, s5, s6, s7, coord_text. now rewrite <- !app_assoc. }
  rewrite E. clear E.
  assert (P6 : forall p : ascii -> bool, p "D"%char = false -> p "*"%char = false -> nohead p s6).
  { intros p H1 H2. unfold s6, s7. destruct (ops_head op Hop) as [->|[q ->]]; cbn; auto. }
  assert (P5 : forall p : ascii -> bool, p "J"%char = false -> p "D"%char = false -> p "*"%char = false -> nohead p s5).
  { intros p H1 H2 H3. unfold s5. destruct tj as [t|]; [exact H1|cbn; auto]. }
  assert (P4 : forall p : ascii -> bool, p "I"%char = false -> p "J"%char = false -> p "D"%char = false -> p "*"%char = false -> nohead p s4).
  { intros p H0 H1 H2 H3. unfold s4. destruct ti as [t|]; [exact H0|cbn; auto]. }
  assert (P3 : forall p : ascii -> bool, p "Y"%char = false -> p "I"%char = false -> p "J"%char = false -> p "D"%char = false -> p "*"%char = false -> nohead p s3).
  { intros p H H0 H1 H2 H3. unfold s3. destruct ty as [t|]; [exact H|cbn; auto]. }
  assert (P2 : nohead (ceq "G"%char) s2).
  { unfold s2. destruct tx as [t|]; [reflexivity|]. cbn. apply P3; reflexivity. }
  eapply first_match. unfold COORD_STMT, coord_caps. cbn [seqs].
  replace (opt_caps "op" op ++ field_caps "j" tj ++ field_caps "i" ti ++ field_caps "y" ty ++ field_caps "x" tx ++ opt_caps "function" fn)
    with ((((((([] ++ opt_caps "op" op) ++ field_caps "j" tj) ++ field_caps "i" ti) ++ field_caps "y" ty) ++ field_caps "x" tx) ++ opt_caps "function" fn))
    by (now rewrite <- !app_assoc).
  eapply first_seq; [now apply first_function|].
  eapply first_seq; [apply (first_part "X"); [destruct tx; [exact Hx|apply P3; reflexivity]|apply P3; reflexivity]|].
  eapply first_seq; [apply (first_part "Y"); [destruct ty; [exact Hy|apply P4; reflexivity]|apply P4; reflexivity]|].
  eapply first_seq; [apply (first_part "I"); [destruct ti; [exact Hi|apply P5; reflexivity]|apply P5; reflexivity]|].
  eapply first_seq; [apply (first_part "J"); [destruct tj; [exact Hj|apply P6; reflexivity]|apply P6; reflexivity]|].
  eapply first_seq; [now apply first_op|].
  apply first_lit.
Qed.

Lemma coord_field_text st c v : announceable st -> opt_on_grid st v ->
  exists o, coord_field st c v = Ok (field_text c o) /\ opt_number o /\ parse_opt st o = Ok v.
Proof.
  intros Hs Hv. destruct v as [v|]; cbn [coord_field].
  - destruct (write_number_text st v Hs Hv) as (t & -> & Hn & Hp). exists (Some t). cbn [field_text bind].
    split; [reflexivity|]. split; [exact Hn|]. cbn [parse_opt]. now rewrite Hp.
  - exists None. cbn. auto.
Qed.

Lemma step_coord inc st st' fn x y i j op : announceable st -> p_zs st' = p_zs st -> p_fmt st' = p_fmt st ->
  writable st (SCoord fn x y i j op) ->
  exists t, to_gerber st (SCoord fn x y i j op) = Ok t /\
   (forall rest, parse_step inc st' (t ++ rest) = Some (Ok ([SCoord fn x y i j op], st', rest))) /\
   (exists tx ty ti tj, t = coord_text fn tx ty ti tj op /\ opt_number tx /\ opt_number ty /\ opt_number ti /\ opt_number tj).
Proof.
  intros Hs Ez Ef W. inversion W as [fn' x' y' i' j' op' Hfn Hop Hx Hy Hi Hj Hne| | | | | | | | | | | | | | | |]; subst.
  destruct (coord_field_text st "X" x Hs Hx) as (tx & Ex & Nx & Px).
  destruct (coord_field_text st "Y" y Hs Hy) as (ty & Ey & Ny & Py).
  destruct (coord_field_text st "I" i Hs Hi) as (ti & Ei & Ni & Pi).
  destruct (coord_field_text st "J" j Hs Hj) as (tj & Ej & Nj & Pj).
  exists (coord_text fn tx ty ti tj op). cbn [to_gerber]. rewrite Ex, Ey, Ei, Ej. cbn [bind].
  split; [reflexivity|]. split; [|now exists tx, ty, ti, tj].
  intros rest. pose proof (first_coord fn tx ty ti tj op rest Hfn Hop Nx Ny Ni Nj) as M.
  assert (Hd : exists c r, coord_text fn tx ty ti tj op ++ rest = c :: r /\ ceq c "*"%char = false).
  { unfold coord_text.
    destruct fn as [f|].
    { cbn in Hfn. repeat (destruct Hfn as [<-|Hfn]; [eexists _, _; split; [reflexivity|reflexivity]|]). destruct Hfn. }
    destruct tx; [eexists _, _; split; [reflexivity|reflexivity]|].
    destruct ty; [eexists _, _; split; [reflexivity|reflexivity]|].
    destruct ti; [eexists _, _; split; [reflexivity|reflexivity]|].
    destruct tj; [eexists _, _; split; [reflexivity|reflexivity]|].
    destruct (ops_head op Hop) as [E|[q E]]; [|cbn [opt_text app field_text]; rewrite E; eexists _, _; split; [reflexivity|reflexivity]].
    exfalso. apply Hne. cbn in Px, Py, Pi, Pj. injection Px as <-. injection Py as <-. injection Pi as <-. injection Pj as <-.
    destruct op as [o|]; [|reflexivity]. cbn in Hop, E. subst o. repeat (destruct Hop as [Hop|Hop]; [discriminate|]). destruct Hop. }
  destruct Hd as (c & r & Ed & Hc). rewrite Ed in *. unfold parse_step. rewrite Hc, M.
  assert (Q : forall g o v, parse_opt st o = Ok v -> group g (coord_caps fn tx ty ti tj op) = o ->
     parse_opt st' (group g (coord_caps fn tx ty ti tj op)) = Ok v).
  { intros g o v H ->. unfold parse_opt in *. now rewrite Ez, Ef. }
  unfold coord_from_dict.
  rewrite (Q "x"%string tx x Px), (Q "y"%string ty y Py), (Q "i"%string ti i Pi), (Q "j"%string tj j Pj)
    by (destruct fn, tx, ty, ti, tj, op; reflexivity).
  cbn [bind]. do 5 f_equal; destruct fn, tx, ty, ti, tj, op; reflexivity.
Qed.

(** ** Statements of fixed text *)

Lemma step_polarity inc st0 st p rest : exists t, to_gerber st0 (SLP p) = Ok t /\
  parse_step inc st (t ++ rest) = Some (Ok ([SLP p], st, rest)).
Proof. destruct p; eexists; split; reflexivity. Qed.

Lemma step_units inc st0 st u rest : exists t, to_gerber st0 (SMO true u) = Ok t /\
  parse_step inc st (t ++ rest) = Some (Ok ([SMO true u], mkPset (p_zs st) (p_fmt st) (p_abs st) u, rest)).
Proof. destruct u; eexists; split; reflexivity. Qed.

Lemma step_region inc st0 st m rest : exists t, to_gerber st0 (SReg m) = Ok t /\
  parse_step inc st (t ++ rest) = Some (Ok ([SReg m], st, rest)).
Proof. destruct m; eexists; split; reflexivity. Qed.

Lemma step_quadrant inc st0 st q rest : exists t, to_gerber st0 (SQuad q) = Ok t /\
  parse_step inc st (t ++ rest) = Some (Ok ([SQuad q], st, rest)).
Proof. destruct q; eexists; split; reflexivity. Qed.

Lemma step_eof inc st0 st rest : exists t, to_gerber st0 SEof = Ok t /\
  parse_step inc st (t ++ rest) = Some (Ok ([SEof], st, rest)).
Proof. eexists; split; reflexivity. Qed.

Lemma step_image_polarity inc st0 st p rest : exists t, to_gerber st0 (SIP p) = Ok t /\
  parse_step inc st (t ++ rest) = Some (Ok ([SIP p], st, rest)).
Proof. destruct p; eexists; split; reflexivity. Qed.

Lemma step_axis inc st0 st m rest : In m [T "AXBY"; T "AYBX"] -> exists t, to_gerber st0 (SAS m) = Ok t /\
  parse_step inc st (t ++ rest) = Some (Ok ([SAS m], st, rest)).
Proof. intros [<-|[<-|[]]]; eexists; split; reflexivity. Qed.

Lemma step_mirror inc st0 st a b rest : In a [0; 1]%Z -> In b [0; 1]%Z ->
  exists t, to_gerber st0 (SMI (Some a) (Some b)) = Ok t /\
  parse_step inc st (t ++ rest) = Some (Ok ([SMI (Some a) (Some b)], st, rest)).
Proof. intros [<-|[<-|[]]] [<-|[<-|[]]]; eexists; split; reflexivity. Qed.

Lemma step_format inc st0 st rest : announceable st0 ->
  exists t, to_gerber st0 (SFS (p_zs st0) (p_abs st0) (p_fmt st0)) = Ok t /\
  parse_step inc st (t ++ rest) = Some (Ok ([SFS (p_zs st0) (p_abs st0) (p_fmt st0)],
    mkPset (p_zs st0) (p_fmt st0) (p_abs st0) (p_units st), rest)).
Proof.
  intros [Hz Hf]. eexists. split; [reflexivity|]. destruct st0 as [zs [i d] abs u]. cbn [p_zs p_abs p_fmt fst snd] in *.
  destruct Hf as [Hi Hd].
  assert (Ei : (i = 1 \/ i = 2 \/ i = 3 \/ i = 4 \/ i = 5 \/ i = 6)%nat) by lia.
  assert (Ed : (d = 1 \/ d = 2 \/ d = 3 \/ d = 4 \/ d = 5 \/ d = 6 \/ d = 7)%nat) by lia.
  clear Hi Hd. destruct zs; [| |contradiction]; (destruct abs;
  destruct Ei as [->|[->|[->|[->|[->| ->]]]]]; destruct Ed as [->|[->|[->|[->|[->|[->| ->]]]]]]; reflexivity).
Qed.

(** ** Comments *)

Lemma step_comment inc st0 st c rest : Forall (fun x => ~ In x (T "*%" ++ [nl; cr])) c ->
  exists t, to_gerber st0 (SCom c) = Ok t /\
  parse_step inc st (t ++ rest) = Some (Ok ([SCom c], st, rest)).
Proof.
  intros H. eexists. split; [reflexivity|].
  assert (M : re_match COMMENT_STMT (T "G04" ++ c ++ T "*" ++ rest) = Some ([(T "comment", c)], rest)).
  { eapply first_match. unfold COMMENT_STMT. cbn [seqs].
    change [(T "comment", c)] with (((([] ++ [(T "comment", c)]) ++ []) ++ []) ++ []).
    change (T "G04" ++ c ++ T "*" ++ rest) with (T "G" ++ T "0" ++ T "4" ++ c ++ T "*" ++ rest).
    eapply first_seq; [apply first_lit|]. eapply first_seq; [apply first_opt, first_lit|].
    eapply first_seq; [apply first_lit|]. eapply first_seq.
    - apply first_grp. apply first_star; [|reflexivity]. apply forallb_forall. intros x Hx.
      rewrite Forall_forall in H. specialize (H x Hx). unfold not_in. apply Bool.negb_true_iff.
      unfold char_in. cbn. destruct (ceq_spec x "*"%char) as [->|]; [|reflexivity]. exfalso. apply H. cbn. auto.
    - apply first_opt, first_lit. }
  replace ((T "G04" ++ c ++ T "*") ++ rest) with (T "G04" ++ c ++ T "*" ++ rest) by now rewrite <- !app_assoc.
  transitivity (match re_match COMMENT_STMT (T "G04" ++ c ++ T "*" ++ rest) with
     | Some (g, r) => Some (Ok ([SCom (dflt (group "comment" g))], st, r))
     | None => parse_step inc st [] end).
  - rewrite M. unfold parse_step. cbn [T list_ascii_of_string app] in *.
    change (ceq "G" "*") with false. cbv iota.
    change (re_match COORD_STMT ("G"%char :: "0"%char :: "4"%char :: c ++ "*"%char :: rest)) with (@None (caps * text)).
    change (re_match APERTURE_STMT ("G"%char :: "0"%char :: "4"%char :: c ++ "*"%char :: rest)) with (@None (caps * text)).
    change (match_one_from_many PARAM_STMT ("G"%char :: "0"%char :: "4"%char :: c ++ "*"%char :: rest)) with (@None (caps * text)).
    change (re_match REGION_MODE_STMT ("G"%char :: "0"%char :: "4"%char :: c ++ "*"%char :: rest)) with (@None (caps * text)).
    change (re_match QUAD_MODE_STMT ("G"%char :: "0"%char :: "4"%char :: c ++ "*"%char :: rest)) with (@None (caps * text)).
    cbv iota. now rewrite M.
  - rewrite M. reflexivity.
Qed.

(** ** Aperture selection *)

Lemma first_plus_digits ds r : all_digits ds = true -> ds <> [] -> nohead is_digit r ->
  first (Plus_ is_digit) (ds ++ r) (ds, [], r).
Proof. intros. now apply first_plus. Qed.

Lemma aperture_match (dep : bool) d rest : (0 <= d)%Z ->
  re_match APERTURE_STMT ((if dep then T "G54D" else T "D") ++ show_int d ++ T "*" ++ rest) =
  Some ((T "d", show_int d) :: (if dep then [(T "deprecated", T "G54")] else []), rest).
Proof.
  intros H. unfold show_int. destruct (Z.ltb_spec d 0) as [L|L]; [lia|]. eapply first_match.
  unfold APERTURE_STMT. cbn [seqs].
  replace ((T "d", show_nat d) :: (if dep then [(T "deprecated", T "G54")] else []))
    with ((([] ++ [(T "d", show_nat d)]) ++ []) ++ (if dep then [(T "deprecated", T "G54")] else [])) by reflexivity.
  replace ((if dep then T "G54D" else T "D") ++ show_nat d ++ T "*" ++ rest)
    with ((if dep then T "G54" else []) ++ T "D" ++ show_nat d ++ T "*" ++ rest) by (destruct dep; reflexivity).
  eapply (first_seq _ _ _ (if dep then T "G54" else []) (if dep then [(T "deprecated", T "G54")] else [])
            (T "D" ++ show_nat d ++ T "*" ++ rest)).
  - destruct dep; [eexists; reflexivity|]. apply first_opt_skip. reflexivity.
  - eapply first_seq; [apply first_lit|]. eapply first_seq; [|apply first_lit].
    apply first_grp. apply first_plus_digits; [apply show_nat_digits|apply show_nat_nonempty|reflexivity].
Qed.

Lemma py_int_show d : (0 <= d)%Z -> py_int (show_int d) = Ok d.
Proof.
  intros H. unfold show_int. destruct (Z.ltb_spec d 0) as [L|L]; [lia|].
  pose proof (show_nat_digits d) as D. pose proof (dval_show_nat d H) as V.
  destruct (show_nat d) as [|c r] eqn:E; [now apply show_nat_nonempty in E|].
  unfold py_int. assert (Dc : is_digit c = true) by (cbn in D; now apply andb_prop in D).
  rewrite (digit_neq c "-"%char), (digit_neq c "+"%char) by auto. rewrite D, V. f_equal. lia.
Qed.

Lemma py_int_show_neg d : (d < 0)%Z -> py_int (show_int d) = Ok d.
Proof.
  intros H. unfold show_int. destruct (Z.ltb_spec d 0) as [L|L]; [|lia]. unfold py_int.
  change (ceq "-" "-") with true. cbv iota.
  pose proof (show_nat_digits (- d)) as D. pose proof (dval_show_nat (- d) ltac:(lia)) as V.
  destruct (show_nat (- d)) as [|c r] eqn:E; [now apply show_nat_nonempty in E|].
  rewrite D, V. f_equal. lia.
Qed.

Lemma coord_fails_on_D c1 c2 r : is_digit c2 = true -> c1 <> "0"%char ->
  rm COORD_STMT ("D"%char :: c1 :: c2 :: r) = [].
Proof.
  intros D N. unfold COORD_STMT. cbn [seqs].
  apply fail_seq. intros u cs t I. cbn in I. destruct I as [I|[]]. injection I as <- <- <-.
  apply fail_seq. intros u cs t I. cbn in I. destruct I as [I|[]]. injection I as <- <- <-.
  apply fail_seq. intros u cs t I. cbn in I. destruct I as [I|[]]. injection I as <- <- <-.
  apply fail_seq. intros u cs t I. cbn in I. destruct I as [I|[]]. injection I as <- <- <-.
  apply fail_seq. intros u cs t I. cbn in I. destruct I as [I|[]]. injection I as <- <- <-.
  apply fail_seq. intros u cs t I. cbn -[one_of] in I.
  change (ceq "D" "D") with true in I. cbv iota in I. cbn [flat_map map app] in I.
  assert (N' : ceq "0"%char c1 = false) by (apply ceq_false; congruence). rewrite N' in I. cbn -[one_of] in I.
  destruct (one_of "123" c1); cbn in I.
  - destruct I as [I|[I|[]]]; injection I as <- <- <-; [|reflexivity]. cbn.
    destruct (ceq_spec "*"%char c2) as [<-|]; [discriminate D|reflexivity].
  - destruct I as [I|[]]. injection I as <- <- <-. reflexivity.
Qed.

Lemma show_nat_two d : (10 <= d)%Z -> exists c1 c2 r, show_nat d = c1 :: c2 :: r /\ is_digit c2 = true /\ c1 <> "0"%char.
Proof.
  intros H. destruct (show_nat_head d ltac:(lia)) as (c1 & r1 & E & D1 & N).
  pose proof (show_nat_digits d) as D. pose proof (dval_show_nat d ltac:(lia)) as V. rewrite E in *.
  destruct r1 as [|c2 r].
  - exfalso. rewrite dval_cons in V. cbn in V. apply digit_val_range in D1. lia.
  - exists c1, c2, r. split; [reflexivity|]. split; [|exact N]. cbn in D. apply andb_prop in D as [_ D].
    now apply andb_prop in D as [D _].
Qed.

Lemma step_aperture inc st0 st d (dep : bool) rest : (if dep then 0 <= d else 10 <= d)%Z ->
  exists t, to_gerber st0 (SAp d dep) = Ok t /\
  parse_step inc st (t ++ rest) = Some (Ok ([SAp d dep], st, rest)).
Proof.
  intros H. eexists. split; [reflexivity|].
  assert (H0 : (0 <= d)%Z) by (destruct dep; lia).
  pose proof (aperture_match dep d rest H0) as M. pose proof (py_int_show d H0) as PI.
  replace (((if dep then T "G54D" else T "D") ++ show_int d ++ T "*") ++ rest)
    with ((if dep then T "G54D" else T "D") ++ show_int d ++ T "*" ++ rest) by now rewrite <- !app_assoc.
  assert (C : re_match COORD_STMT ((if dep then T "G54D" else T "D") ++ show_int d ++ T "*" ++ rest) = None).
  { destruct dep; [reflexivity|]. apply fail_match. unfold show_int. destruct (Z.ltb_spec d 0) as [L|L]; [lia|].
    destruct (show_nat_two d H) as (c1 & c2 & r & E & D & N). rewrite E.
    apply (coord_fails_on_D c1 c2 (r ++ T "*" ++ rest) D N). }
  assert (Hd : exists c r, (if dep then T "G54D" else T "D") ++ show_int d ++ T "*" ++ rest = c :: r /\ ceq c "*"%char = false)
    by (destruct dep; eexists _, _; split; reflexivity).
  destruct Hd as (c & r & Ed & Hc). rewrite Ed in *. unfold parse_step. rewrite Hc, C, M.
  destruct dep; cbn [group dflt]; change (teq (T "d") (T "d")) with true; cbv iota; cbn [dflt]; rewrite PI; reflexivity.
Qed.

(** ** Image rotation *)

Lemma step_rotation inc st0 st a rest : exists t, to_gerber st0 (SIR a) = Ok t /\
  parse_step inc st (t ++ rest) = Some (Ok ([SIR a], st, rest)).
Proof.
  eexists. split; [reflexivity|].
  assert (NT : number_text (show_int a)).
  { unfold show_int. destruct (Z.ltb_spec a 0); [exists true|exists false]; eexists; (split; [reflexivity|]);
    (split; [apply show_nat_digits|apply show_nat_nonempty]). }
  assert (PI : py_int (show_int a) = Ok a) by (destruct (Z.ltb_spec a 0); [now apply py_int_show_neg|now apply py_int_show]).
  assert (M : re_match (param_wrap IR) (T "%IR" ++ show_int a ++ T "*%" ++ rest) = Some ([(T "angle", show_int a); (T "param", T "IR")], rest)).
  { eapply first_match. unfold param_wrap, IR. cbn [seqs].
    change [(T "angle", show_int a); (T "param", T "IR")] with (((([] ++ []) ++ ([(T "angle", show_int a)] ++ [(T "param", T "IR")])) ++ [])).
    change (T "%IR" ++ show_int a ++ T "*%" ++ rest) with (T "%" ++ T "IR" ++ show_int a ++ T "*" ++ T "%" ++ rest).
    eapply first_seq; [apply first_opt, first_lit|]. eapply first_seq.
    - eapply first_seq; [apply first_grp, first_lit|]. apply first_grp, first_number; [exact NT|reflexivity].
    - eapply first_seq; [apply first_lit|]. apply first_opt, first_lit. }
  replace ((T "%IR" ++ show_int a ++ T "*%") ++ rest) with (T "%IR" ++ show_int a ++ T "*%" ++ rest) by now rewrite <- !app_assoc.
  transitivity (match re_match (param_wrap IR) (T "%IR" ++ show_int a ++ T "*%" ++ rest) with
     | Some (g, r) => Some (param_stmt inc st g r) | None => None end); [rewrite M|rewrite M;
    change (param_stmt inc st [(T "angle", show_int a); (T "param", T "IR")] rest)
      with (do a0 <- py_int (show_int a); Ok ([SIR a0], st, rest)); now rewrite PI].
  unfold parse_step. cbn [T list_ascii_of_string app] in *. change (ceq "%" "*") with false. cbv iota.
  set (s := "%"%char :: "I"%char :: "R"%char :: show_int a ++ "*"%char :: "%"%char :: rest) in *.
  change (re_match COORD_STMT s) with (@None (caps * text)).
  change (re_match APERTURE_STMT s) with (@None (caps * text)). cbv iota.
  change (match_one_from_many PARAM_STMT s) with (match_one_from_many (map param_wrap [IR; MI; OF; SF; LN]) s).
  cbn [map match_one_from_many]. rewrite M. reflexivity.
Qed.

(** ** Aperture definitions *)

Definition ad_tail (com : re) : re :=
  Seq com (Seq (G "modifiers" (Star (not_in ",%"))) (Seq (L "*") (Opt (L "%")))).
Definition ad_rest (shp com : re) : re :=
  Seq (G "d" (Plus_ is_digit)) (Seq (G "shape" shp) (ad_tail com)).

Lemma ad_assoc shp com s : rm (param_wrap (AD_SHAPE shp com)) s =
  rm (Seq (Opt (L "%")) (Seq (G "param" (L "AD")) (Seq (L "D") (ad_rest shp com)))) s.
Proof.
  unfold param_wrap, AD_SHAPE, ad_rest, ad_tail. cbn [seqs].
  apply rm_seq_cong. intros t. rewrite rm_seq_assoc.
  apply rm_seq_cong. clear. intros t. rewrite rm_seq_assoc.
  apply rm_seq_cong. clear. intros t. rewrite rm_seq_assoc.
  apply rm_seq_cong. clear. intros t. rewrite rm_seq_assoc.
  apply rm_seq_cong. clear. intros t. rewrite rm_seq_assoc. reflexivity.
Qed.

Lemma ad_prefix_fail shp com q : rm (ad_rest shp com) q = [] ->
  re_match (param_wrap (AD_SHAPE shp com)) (T "%ADD" ++ q) = None.
Proof.
  intros H. apply fail_match. rewrite ad_assoc. apply fail_seq. intros u cs t I. cbn in I.
  destruct I as [I|[I|[]]]; injection I as <- <- <-; [|reflexivity].
  apply fail_seq. intros u cs t I. cbn in I. destruct I as [I|[]]. injection I as <- <- <-.
  apply fail_seq. intros u cs t I. cbn in I. destruct I as [I|[]]. injection I as <- <- <-. exact H.
Qed.

Lemma ad_prefix_match shp com q u cs t : first (ad_rest shp com) q (u, cs, t) ->
  re_match (param_wrap (AD_SHAPE shp com)) (T "%ADD" ++ q) = Some (cs ++ [(T "param", T "AD")], t).
Proof.
  intros H. eapply first_match. eapply first_ext; [apply ad_assoc|].
  replace (cs ++ [(T "param", T "AD")]) with (((cs ++ []) ++ [(T "param", T "AD")]) ++ []) by now rewrite !app_nil_r.
  change (T "%ADD" ++ q) with (T "%" ++ T "AD" ++ T "D" ++ q).
  eapply first_seq; [apply first_opt, first_lit|]. eapply first_seq; [apply first_grp, first_lit|].
  eapply first_seq; [apply first_lit|]. exact H.
Qed.

Lemma ad_digits_fail ds r n : all_digits ds = true -> nohead is_digit r ->
  (forall d2, all_digits d2 = true -> rm n (d2 ++ r) = []) ->
  rm (Seq (G "d" (Plus_ is_digit)) n) (ds ++ r) = [].
Proof.
  intros D Hr Hn. apply fail_seq. intros u cs t I.
  assert (F : exists d2, all_digits d2 = true /\ t = d2 ++ r).
  { unfold G in I. cbn [rm] in I. apply in_map_iff in I as ([[u1 cs1] t1] & E & I). injection E as <- <- <-.
    unfold Plus_ in I. cbn [rm] in I. apply in_flat_map in I as ([[u2 cs2] t2] & I1 & I2).
    apply in_map_iff in I2 as ([[u3 cs3] t3] & E & I2). injection E as <- <- <-.
    destruct (ds ++ r) as [|c s] eqn:Es; [destruct I1|]. destruct (is_digit c) eqn:Dc; [|destruct I1].
    destruct I1 as [I1|[]]. injection I1 as <- <- <-. apply star_match_used in I2 as (Et & _ & F). subst s.
    destruct ds as [|d0 ds]; cbn [app] in Es.
    { subst r. cbn in Hr. congruence. }
    injection Es as <- Es. cbn [all_digits forallb] in D. apply andb_prop in D as [_ D].
    clear -Es D Hr F. revert ds Es D. induction u3 as [|x u3 IH]; intros ds Es D.
    - cbn [app] in Es. subst t3. eauto.
    - destruct ds as [|y ds]; cbn [app] in Es.
      + subst r. cbn in Hr. cbn in F. rewrite Hr in F. discriminate.
      + injection Es as <- Es. cbn in F, D. apply andb_prop in F as [_ F]. apply andb_prop in D as [_ D]. eauto. }
  destruct F as (d2 & D2 & ->). now apply Hn.
Qed.

(** The pattern for a one-letter shape fails when that letter does not follow the number. *)
Lemma ad_letter_fail c com ds r : all_digits ds = true -> is_digit c = false -> nohead is_digit r -> nohead (ceq c) r ->
  rm (ad_rest (Lit [c]) com) (ds ++ r) = [].
Proof.
  intros D Hc Hr Hrc. apply ad_digits_fail; auto. intros d2 D2. apply fail_seq_l, fail_grp.
  destruct d2 as [|x d2].
  - destruct r as [|x r]; [reflexivity|]. cbn in Hrc. cbn. now rewrite Hrc.
  - cbn in D2. apply andb_prop in D2 as [Dx _]. cbn. destruct (ceq_spec c x) as [->|]; [congruence|reflexivity].
Qed.

(** ... or when it is not followed by a comma, if one is required. *)
Lemma ad_letter_fail2 c ds r : all_digits ds = true -> is_digit c = false -> nohead (ceq ","%char) r ->
  rm (ad_rest (Lit [c]) (L ",")) (ds ++ c :: r) = [].
Proof.
  intros D Hc Hr. apply ad_digits_fail; auto. intros d2 D2. destruct d2 as [|x d2].
  - apply fail_seq. intros u cs t I. cbn [app] in I. unfold G in I. cbn in I. rewrite ceq_refl in I. cbn in I.
    destruct I as [I|[]]. injection I as <- <- <-. apply fail_seq_l. destruct r as [|x r]; [reflexivity|].
    cbn in Hr. unfold L. cbn. now rewrite Hr.
  - apply fail_seq_l, fail_grp. cbn in D2. apply andb_prop in D2 as [Dx _]. cbn.
    destruct (ceq_spec c x) as [->|]; [congruence|reflexivity].
Qed.

Lemma ad_mods_match com ctext mods rest : forallb (not_in ",%") mods = true ->
  first com (ctext ++ mods ++ T "*%" ++ rest) (ctext, [], mods ++ T "*%" ++ rest) ->
  first (ad_tail com) (ctext ++ mods ++ T "*%" ++ rest) (ctext ++ mods ++ T "*%", [(T "modifiers", mods)], rest).
Proof.
  intros Hm Hc. unfold ad_tail.
  replace [(T "modifiers", mods)] with ((([] ++ []) ++ [(T "modifiers", mods)]) ++ []) by reflexivity.
  eapply first_seq; [exact Hc|].
  eapply (first_seq_back _ _ _ mods [(T "modifiers", mods)] (T "*" ++ T "%" ++ rest) (T "*" ++ T "%")).
  - change (mods ++ T "*%" ++ rest) with (mods ++ T "*" ++ T "%" ++ rest).
    apply firstb_grp. apply firstb_star; [|reflexivity|].
    + rewrite forallb_app, Hm. reflexivity.
    + intros x1 x2 N E. destruct x1 as [|c x1]; [contradiction|]. cbn in E. injection E as <- E.
      destruct x1; [|discriminate]. cbn in E. subst x2. reflexivity.
  - eapply first_seq; [apply first_lit|]. apply first_opt, first_lit.
Qed.

Lemma ad_full_match shp com ds shape ctext mods rest : all_digits ds = true -> ds <> [] ->
  nohead is_digit (shape ++ ctext ++ mods ++ T "*%" ++ rest) ->
  first shp (shape ++ ctext ++ mods ++ T "*%" ++ rest) (shape, [], ctext ++ mods ++ T "*%" ++ rest) ->
  first com (ctext ++ mods ++ T "*%" ++ rest) (ctext, [], mods ++ T "*%" ++ rest) ->
  forallb (not_in ",%") mods = true ->
  re_match (param_wrap (AD_SHAPE shp com)) (T "%ADD" ++ ds ++ shape ++ ctext ++ mods ++ T "*%" ++ rest) =
  Some ([(T "modifiers", mods); (T "shape", shape); (T "d", ds); (T "param", T "AD")], rest).
Proof.
  intros D N Hh Hs Hc Hm.
  erewrite ad_prefix_match with (cs := [(T "modifiers", mods); (T "shape", shape); (T "d", ds)]); [reflexivity|].
  unfold ad_rest.
  change [(T "modifiers", mods); (T "shape", shape); (T "d", ds)]
    with (([(T "modifiers", mods)] ++ [(T "shape", shape)]) ++ [(T "d", ds)]).
  eapply first_seq; [apply first_grp, first_plus_digits; auto|].
  eapply first_seq; [apply first_grp; exact Hs|]. now apply ad_mods_match.
Qed.

(** *** Modifiers *)

Lemma at_most_digits_exact P v : (1 <= P)%nat -> at_most_digits P v -> py_float (fmt_g P v) = Ok v.
Proof.
  intros HP (m & k & l & Hm & E). rewrite py_float_fmt_g by auto. f_equal.
  apply (round_sig_signed_exact P v m (Z.of_nat l - Z.of_nat k)); [auto|exact Hm|].
  rewrite (qpow10_frac _ k l) by reflexivity. rewrite !ten_p10 in E. fold (zq m) in E.
  unfold Qcdiv. rewrite Qcmult_assoc, <- E. field. apply zq_p10_nonzero.
Qed.

(** Characters of a written number. *)
Definition gchar (c : ascii) : bool := is_digit c || char_in c (T "+-.e").

Lemma show_fixed_gchars n k : forallb gchar (show_fixed n k) = true.
Proof.
  assert (D : forall s, all_digits s = true -> forallb gchar s = true).
  { intros s H. apply forallb_forall. intros x Hx. unfold all_digits in H. rewrite forallb_forall in H.
    unfold gchar. now rewrite (H x Hx). }
  unfold show_fixed. rewrite forallb_app, D by apply show_nat_digits.
  destruct (rstrip_dig_val [] (dig k (n mod p10 k)) k (dig_digits _ _) (dig_length _ _)) as [_ E].
  destruct (rstrip_p (ceq "0"%char) (dig k (n mod p10 k))) as [|c b]; [reflexivity|]. cbn [forallb andb].
  change (forallb gchar (c :: b) = true). now apply D.
Qed.

Lemma show_exp_gchars e : forallb gchar (show_exp e) = true.
Proof.
  assert (D : forall s, all_digits s = true -> forallb gchar s = true).
  { intros s H. apply forallb_forall. intros x Hx. unfold all_digits in H. rewrite forallb_forall in H.
    unfold gchar. now rewrite (H x Hx). }
  unfold show_exp. rewrite forallb_app. apply andb_true_intro. split; [destruct (e <? 0)%Z; reflexivity|].
  cbv zeta. destruct (Z.abs e <? 10)%Z; [cbn [forallb]|]; rewrite D by apply show_nat_digits; reflexivity.
Qed.

Lemma fmt_g_gchars P v : (1 <= P)%nat -> forallb gchar (fmt_g P v) = true /\ fmt_g P v <> [].
Proof.
  intros HP. unfold fmt_g. destruct (qceq_spec v 0) as [|Hz]; [split; [reflexivity|discriminate]|].
  assert (G : forall w, 0 < w -> forallb gchar (fmt_g_pos P w) = true /\ fmt_g_pos P w <> []).
  { intros w Hw. destruct (fmt_g_pos_form P w HP Hw) as (n & k & t & -> & _ & Ht & _).
    rewrite forallb_app, show_fixed_gchars. split.
    - destruct Ht as [->|[e ->]]; [reflexivity|apply show_exp_gchars].
    - destruct (show_fixed_head n k t) as (c & r & -> & _). discriminate. }
  destruct (qclt_spec v 0) as [H|H].
  - split; [|discriminate]. cbn [forallb]. destruct (G (- v) ltac:(qclra)) as [-> _]. reflexivity.
  - apply G. apply Qcnot_le_lt. intros C. apply Qcle_lt_or_eq in C as [C|C]; auto.
Qed.

Lemma gchar_not c x : gchar c = true -> gchar x = false -> c <> x.
Proof. intros H1 H2 ->. congruence. Qed.

Lemma split_on_none c s : Forall (fun x => x <> c) s -> split_on c s = [s].
Proof.
  induction s as [|x s IH]; intros H; [reflexivity|]. inversion H; subst. cbn [split_on].
  rewrite IH by auto. destruct (ceq_spec x c); [contradiction|reflexivity].
Qed.

Lemma gchars_not c s : forallb gchar s = true -> gchar c = false -> Forall (fun x => x <> c) s.
Proof. intros H Hc. apply Forall_forall. intros x Hx. rewrite forallb_forall in H. apply gchar_not; auto. Qed.

Lemma join_X_chars l : forallb (fun c => gchar c || ceq c "X"%char) (join (T "X") (map (fmt_g 4) l)) = true.
Proof.
  assert (W : forall s, forallb gchar s = true -> forallb (fun c => gchar c || ceq c "X"%char) s = true).
  { intros s H. apply forallb_forall. intros x Hx. rewrite forallb_forall in H. now rewrite (H x Hx). }
  induction l as [|v l IH]; [reflexivity|]. cbn [map join].
  destruct (map (fmt_g 4) l) as [|y l'] eqn:E.
  - apply W, fmt_g_gchars. lia.
  - rewrite !forallb_app, W by (apply fmt_g_gchars; lia). rewrite IH. reflexivity.
Qed.

Lemma join_X_split l : l <> [] -> split_on "X"%char (join (T "X") (map (fmt_g 4) l)) = map (fmt_g 4) l.
Proof.
  induction l as [|v l IH]; intros N; [contradiction|]. cbn [map join].
  assert (NX : Forall (fun x => x <> "X"%char) (fmt_g 4 v)) by (apply gchars_not; [apply fmt_g_gchars; lia|reflexivity]).
  destruct l as [|w l].
  - cbn [map]. now apply split_on_none.
  - cbn [map]. change (fmt_g 4 w :: map (fmt_g 4) l) with (map (fmt_g 4) (w :: l)).
    change (T "X" ++ join (T "X") (map (fmt_g 4) (w :: l))) with ("X"%char :: join (T "X") (map (fmt_g 4) (w :: l))).
    rewrite split_on_app by (intros Hx; rewrite Forall_forall in NX; exact (NX _ Hx eq_refl)).
    now rewrite IH by discriminate.
Qed.

Lemma join_X_nonempty l : l <> [] -> join (T "X") (map (fmt_g 4) l) <> [].
Proof.
  destruct l as [|v l]; intros N; [contradiction|]. cbn [map join].
  destruct (fmt_g_gchars 4 v ltac:(lia)) as [_ H]. destruct (map (fmt_g 4) l); [exact H|].
  intros E. apply app_eq_nil in E as [E _]. auto.
Qed.

Lemma read_modifiers_one m : m <> [] -> Forall (fun x => x <> ","%char) m ->
  read_modifiers m = do l <- mapM py_float (filter (fun x => match x with [] => false | _ => true end) (split_on "X"%char m)); Ok [l].
Proof.
  intros N H. unfold read_modifiers. rewrite (split_on_none ","%char m H). destruct m as [|c r]; [contradiction|].
  cbn [filter mapM]. destruct (mapM py_float _); reflexivity.
Qed.

(** [w] is what is read when [v] has been written with four digits. *)
Definition reads4 (v w : Qc) : Prop := py_float (fmt_g 4 v) = Ok w.
Lemma reads4_exact l : Forall (at_most_digits 4) l -> Forall2 reads4 l l.
Proof.
  induction 1 as [|v l Hv Hl IH]; constructor; [|exact IH]. apply at_most_digits_exact; [lia|exact Hv].
Qed.

Lemma read_modifiers_join l l' : Forall2 reads4 l l' -> l <> [] ->
  read_modifiers (join (T "X") (map (fmt_g 4) l)) = Ok [l'].
Proof.
  intros H N. pose proof (join_X_nonempty l N) as NE. rewrite read_modifiers_one by
    (auto; apply Forall_forall; intros x Hx; pose proof (join_X_chars l) as J; rewrite forallb_forall in J;
     specialize (J x Hx); intros ->; discriminate J).
  rewrite join_X_split by auto.
  assert (F : forall l, filter (fun x : list ascii => match x with [] => false | _ => true end) (map (fmt_g 4) l) = map (fmt_g 4) l).
  { clear. induction l as [|v l IH]; [reflexivity|]. cbn [map filter].
    destruct (fmt_g_gchars 4 v ltac:(lia)) as [_ Hn]. destruct (fmt_g 4 v); [contradiction|]. now rewrite IH. }
  rewrite F.
  assert (M : mapM py_float (map (fmt_g 4) l) = Ok l').
  { clear N NE F. induction H as [|v w l l' Hv Hl IH]; [reflexivity|]. cbn [map mapM].
    rewrite Hv, IH. reflexivity. }
  rewrite M. reflexivity.
Qed.

Lemma ad_parse_step inc st q ds shape mods rest :
  match_one_from_many (map param_wrap [AD_CIRCLE; AD_RECT; AD_OBROUND; AD_POLY; AD_MACRO]) (T "%ADD" ++ q) =
    Some ([(T "modifiers", mods); (T "shape", shape); (T "d", ds); (T "param", T "AD")], rest) ->
  parse_step inc st (T "%ADD" ++ q) =
  Some (do d <- py_int ds; do m <- read_modifiers mods; Ok ([SAD d shape m], st, rest)).
Proof.
  intros M. unfold parse_step. cbn [T list_ascii_of_string app] in *. change (ceq "%" "*") with false. cbv iota.
  set (s := "%"%char :: "A"%char :: "D"%char :: "D"%char :: q) in *.
  change (re_match COORD_STMT s) with (@None (caps * text)).
  change (re_match APERTURE_STMT s) with (@None (caps * text)). cbv iota.
  change (match_one_from_many PARAM_STMT s) with (match_one_from_many (map param_wrap
    [AD_CIRCLE; AD_RECT; AD_OBROUND; AD_POLY; AD_MACRO] ++ map param_wrap [AM; AS; IF_; IN; IP; IR; MI; OF; SF; LN]) s).
  assert (A : forall l1 l2 m, match_one_from_many l1 s = Some m -> match_one_from_many (l1 ++ l2) s = Some m).
  { clear. induction l1 as [|r l1 IH]; intros l2 m H; [discriminate|]. cbn [app match_one_from_many] in *.
    destruct (re_match r s); auto. }
  erewrite (A (map param_wrap [AD_CIRCLE; AD_RECT; AD_OBROUND; AD_POLY; AD_MACRO])
              (map param_wrap [AM; AS; IF_; IN; IP; IR; MI; OF; SF; LN]) _ M).
  f_equal.
  transitivity (do x <- (do d <- py_int ds; do m <- read_modifiers mods; Ok (SAD d shape m)); Ok ([x], st, rest)).
  - reflexivity.
  - destruct (py_int ds); [|reflexivity]. cbn [bind]. destruct (read_modifiers mods); reflexivity.
Qed.

Lemma show_int_digits d : (0 <= d)%Z -> all_digits (show_int d) = true /\ show_int d <> [].
Proof.
  intros H. unfold show_int. destruct (Z.ltb_spec d 0); [lia|].
  split; [apply show_nat_digits|apply show_nat_nonempty].
Qed.

(** The modifiers part of the text: the comma (if any) and the modifiers. *)
Definition mods_comma (l : list Qc) : text := match l with [] => [] | _ => T "," end.
Definition mods_text (l : list Qc) : text := join (T "X") (map (fmt_g 4) l).

Lemma ad_text st d shape l rest : exists t, to_gerber st (SAD d shape [l]) = Ok t /\
  t ++ rest = T "%ADD" ++ show_int d ++ shape ++ mods_comma l ++ mods_text l ++ T "*%" ++ rest.
Proof.
  eexists. split; [reflexivity|]. destruct l as [|v l].
  - cbn [any_mods existsb orb mods_comma mods_text map join app]. now rewrite <- !app_assoc.
  - cbn [any_mods existsb orb mods_comma]. cbn [map]. unfold mods_text. cbn [map].
    set (j := join (T "X") (fmt_g 4 v :: map (fmt_g 4) l)). cbn [join].
    now rewrite <- !app_assoc.
Qed.

Lemma mods_chars l : forallb (not_in ",%") (mods_text l) = true.
Proof.
  apply forallb_forall. intros x Hx. pose proof (join_X_chars l) as J. rewrite forallb_forall in J.
  specialize (J x Hx). unfold not_in. apply Bool.negb_true_iff. unfold char_in. cbn.
  destruct (ceq_spec x ","%char) as [->|]; [discriminate J|]. destruct (ceq_spec x "%"%char) as [->|]; [discriminate J|].
  reflexivity.
Qed.

Lemma mods_head l (p : ascii -> bool) rest : p ","%char = false -> p "*"%char = false ->
  nohead p (mods_comma l ++ mods_text l ++ T "*%" ++ rest).
Proof. intros H1 H2. destruct l as [|v l]; [exact H2|exact H1]. Qed.

Lemma read_modifiers_text l l' : Forall2 reads4 l l' -> read_modifiers (mods_text l) = Ok [l'].
Proof.
  intros H. destruct l as [|v l]; [inversion H; reflexivity|]. apply read_modifiers_join; [exact H|discriminate].
Qed.

Lemma opt_comma l rest : first (Opt (L ",")) (mods_comma l ++ mods_text l ++ T "*%" ++ rest)
  (mods_comma l, [], mods_text l ++ T "*%" ++ rest).
Proof.
  destruct l as [|v l].
  - apply first_opt_skip. reflexivity.
  - apply first_opt, first_lit.
Qed.

Lemma define_finish inc st0 st d shape l l' rest : (0 <= d)%Z -> Forall2 reads4 l l' ->
  match_one_from_many (map param_wrap [AD_CIRCLE; AD_RECT; AD_OBROUND; AD_POLY; AD_MACRO])
    (T "%ADD" ++ show_int d ++ shape ++ mods_comma l ++ mods_text l ++ T "*%" ++ rest) =
    Some ([(T "modifiers", mods_text l); (T "shape", shape); (T "d", show_int d); (T "param", T "AD")], rest) ->
  exists t, to_gerber st0 (SAD d shape [l]) = Ok t /\
  parse_step inc st (t ++ rest) = Some (Ok ([SAD d shape [l']], st, rest)).
Proof.
  intros Hd Hl M. destruct (ad_text st0 d shape l rest) as (t & Et & E). exists t. split; [exact Et|].
  rewrite E. rewrite (ad_parse_step inc st _ _ _ _ _ M), py_int_show, (read_modifiers_text l l') by auto. reflexivity.
Qed.

Lemma step_define_circle_gen inc st0 st d l l' rest : (0 <= d)%Z -> Forall2 reads4 l l' ->
  exists t, to_gerber st0 (SAD d (T "C") [l]) = Ok t /\
  parse_step inc st (t ++ rest) = Some (Ok ([SAD d (T "C") [l']], st, rest)).
Proof.
  intros Hd Hl. apply define_finish; auto. destruct (show_int_digits d Hd) as [D N].
  cbn [map match_one_from_many]. unfold AD_CIRCLE.
  rewrite ad_full_match; auto; [reflexivity|apply first_lit|apply opt_comma|apply mods_chars].
Qed.
Lemma step_define_circle inc st0 st d l rest : (0 <= d)%Z -> Forall (at_most_digits 4) l ->
  exists t, to_gerber st0 (SAD d (T "C") [l]) = Ok t /\
  parse_step inc st (t ++ rest) = Some (Ok ([SAD d (T "C") [l]], st, rest)).
Proof. intros. apply step_define_circle_gen; auto. now apply reads4_exact. Qed.

Lemma step_define_other_gen inc st0 st d shape l l' rest : (0 <= d)%Z -> In shape [T "R"; T "O"; T "P"] -> l <> [] ->
  Forall2 reads4 l l' ->
  exists t, to_gerber st0 (SAD d shape [l]) = Ok t /\
  parse_step inc st (t ++ rest) = Some (Ok ([SAD d shape [l']], st, rest)).
Proof.
  intros Hd Hs Nl Hl. apply define_finish; auto. destruct (show_int_digits d Hd) as [D N].
  assert (Hc : first (L ",") (mods_comma l ++ mods_text l ++ T "*%" ++ rest) (mods_comma l, [], mods_text l ++ T "*%" ++ rest)).
  { destruct l; [contradiction|]. apply first_lit. }
  cbn [map match_one_from_many]. unfold AD_CIRCLE, AD_RECT, AD_OBROUND, AD_POLY.
  destruct Hs as [<-|[<-|[<-|[]]]].
  - rewrite ad_prefix_fail by now apply (ad_letter_fail "C").
    rewrite ad_full_match; auto; [reflexivity|apply first_lit|apply mods_chars].
  - rewrite ad_prefix_fail by now apply (ad_letter_fail "C"). rewrite ad_prefix_fail by now apply (ad_letter_fail "R").
    rewrite ad_full_match; auto; [reflexivity|apply first_lit|apply mods_chars].
  - rewrite ad_prefix_fail by now apply (ad_letter_fail "C"). rewrite ad_prefix_fail by now apply (ad_letter_fail "R").
    rewrite ad_prefix_fail by now apply (ad_letter_fail "O").
    rewrite ad_full_match; auto; [reflexivity|apply first_lit|apply mods_chars].
Qed.
Lemma step_define_other inc st0 st d shape l rest : (0 <= d)%Z -> In shape [T "R"; T "O"; T "P"] -> l <> [] ->
  Forall (at_most_digits 4) l ->
  exists t, to_gerber st0 (SAD d shape [l]) = Ok t /\
  parse_step inc st (t ++ rest) = Some (Ok ([SAD d shape [l]], st, rest)).
Proof. intros. apply step_define_other_gen; auto. now apply reads4_exact. Qed.

Lemma letter_first c : In c letter -> name_first c = true.
Proof.
  intros H. assert (F : forallb name_first letter = true) by reflexivity. rewrite forallb_forall in F. auto.
Qed.
Lemma name_chars_rest c : In c (letter ++ T "0123456789+-") -> name_rest c = true.
Proof.
  intros H. assert (F : forallb name_rest (letter ++ T "0123456789+-") = true) by reflexivity.
  rewrite forallb_forall in F. auto.
Qed.
Lemma letter_not_digit c : In c letter -> is_digit c = false.
Proof.
  intros H. assert (F : forallb (fun c => negb (is_digit c)) letter = true) by reflexivity.
  rewrite forallb_forall in F. apply Bool.negb_true_iff. auto.
Qed.
Lemma name_rest_not c x : In c (letter ++ T "0123456789+-") -> name_rest x = false -> ceq x c = false.
Proof. intros H N. destruct (ceq_spec x c) as [->|]; [|reflexivity]. apply name_chars_rest in H. congruence. Qed.

Lemma first_name name r : macro_name name -> nohead name_rest r -> first NAME (name ++ r) (name, [], r).
Proof.
  intros H Hr. destruct name as [|c n]; [destruct H|]. destruct H as (Hc & Hn & Hf). unfold NAME.
  change ((c :: n) ++ r) with (c :: n ++ r).
  apply (first_seq (Cls name_first) (Plus_ name_rest) (c :: n ++ r) [c] [] (n ++ r) n [] r).
  - apply first_cls. now apply letter_first.
  - apply first_plus; auto. apply forallb_forall. intros x Hx. rewrite Forall_forall in Hf. apply name_chars_rest. auto.
Qed.

(** A macro name beginning with C is not mistaken for a circle when modifiers follow. *)
Lemma circle_name_fail ds n r : all_digits ds = true ->
  Forall (fun x => In x (letter ++ T "0123456789+-")) n -> n <> [] ->
  rm (ad_rest (Lit (T "C")) (Opt (L ","))) (ds ++ "C"%char :: n ++ T "," ++ r) = [].
Proof.
  intros D Hn Ne. apply ad_digits_fail; auto; [reflexivity|]. intros d2 D2. destruct d2 as [|x d2].
  2: { apply fail_seq_l, fail_grp. cbn in D2. apply andb_prop in D2 as [Dx _]. cbn.
       destruct (ceq_spec "C"%char x) as [<-|]; [discriminate Dx|reflexivity]. }
  cbn [app]. apply fail_seq. intros u cs t I. unfold G in I. cbn in I. destruct I as [I|[]]. injection I as <- <- <-.
  unfold ad_tail. apply fail_seq. intros u cs t I.
  assert (Et : t = n ++ ","%char :: r).
  { destruct n as [|x n]; [contradiction|]. cbn [app] in *. unfold L in I. cbn in I.
    inversion Hn as [|? ? Hx _]; subst. rewrite (name_rest_not x ","%char Hx eq_refl) in I. cbn in I.
    destruct I as [I|[]]. now injection I as <- <- <-. }
  subst t. clear I u cs. apply fail_seq. intros u cs t I. unfold G in I. cbn [rm] in I.
  apply in_map_iff in I as ([[u1 cs1] t1] & E & I). injection E as <- <- <-.
  apply star_match_used in I as (E & _ & F). apply fail_seq_l.
  assert (P : match t1 with c :: _ => ceq "*"%char c = false | [] => True end).
  { clear Ne D. revert u1 E F. induction Hn as [|x n Hx Hn IH]; intros u1 E F.
    - destruct u1 as [|y u1]; cbn [app] in E.
      + now subst t1.
      + injection E as <- E. discriminate F.
    - destruct u1 as [|y u1]; cbn [app] in E.
      + subst t1. now apply name_rest_not.
      + injection E as <- E. cbn [forallb] in F. apply andb_prop in F as [_ F]. exact (IH _ E F). }
  destruct t1 as [|c t1]; [reflexivity|]. unfold L. cbn. now rewrite P.
Qed.

Lemma step_define_macro_gen inc st0 st d name l l' rest : (0 <= d)%Z -> macro_name name -> Forall2 reads4 l l' ->
  (l = [] -> forall r, name <> T "C" ++ r) ->
  exists t, to_gerber st0 (SAD d name [l]) = Ok t /\
  parse_step inc st (t ++ rest) = Some (Ok ([SAD d name [l']], st, rest)).
Proof.
  intros Hd Hm Hl HC. apply define_finish; auto. destruct (show_int_digits d Hd) as [D N].
  set (q := mods_comma l ++ mods_text l ++ T "*%" ++ rest).
  assert (Hname : exists c x n, name = c :: x :: n /\ In c letter /\ Forall (fun x => In x (letter ++ T "0123456789+-")) (x :: n)).
  { destruct name as [|c [|x n]]; cbn in Hm; [destruct Hm|destruct Hm as (_ & H & _); contradiction|].
    exists c, x, n. destruct Hm as (H1 & _ & H2). auto. }
  destruct Hname as (c & x & n & -> & Hc & Hn). pose proof (letter_not_digit c Hc) as Dc.
  assert (Hd0 : nohead is_digit ((c :: x :: n) ++ q)) by exact Dc.
  assert (R : forall k, is_digit k = false -> re_match (param_wrap (AD_SHAPE (Lit [k]) (L ","))) (T "%ADD" ++ show_int d ++ (c :: x :: n) ++ q) = None).
  { intros k Hk. apply ad_prefix_fail. destruct (ceq_spec k c) as [->|Hne].
    - apply (ad_letter_fail2 c (show_int d) ((x :: n) ++ q)); [exact D|exact Hk|]. cbn. inversion Hn; subst. now apply name_rest_not.
    - apply ad_letter_fail; auto. cbn. now apply ceq_false. }
  assert (RC : re_match (param_wrap AD_CIRCLE) (T "%ADD" ++ show_int d ++ (c :: x :: n) ++ q) = None).
  { apply ad_prefix_fail. destruct (ceq_spec "C"%char c) as [<-|Hne].
    - destruct l as [|v l].
      + exfalso. apply (HC eq_refl (x :: n)). reflexivity.
      + apply (circle_name_fail (show_int d) (x :: n) (mods_text (v :: l) ++ T "*%" ++ rest)); auto. discriminate.
    - apply (ad_letter_fail "C"); auto. cbn. now apply ceq_false. }
  assert (RR : re_match (param_wrap AD_RECT) (T "%ADD" ++ show_int d ++ (c :: x :: n) ++ q) = None) by exact (R "R"%char eq_refl).
  assert (RO : re_match (param_wrap AD_OBROUND) (T "%ADD" ++ show_int d ++ (c :: x :: n) ++ q) = None) by exact (R "O"%char eq_refl).
  assert (RP : re_match (param_wrap AD_POLY) (T "%ADD" ++ show_int d ++ (c :: x :: n) ++ q) = None) by exact (R "P"%char eq_refl).
  cbn [map match_one_from_many]. rewrite RC, RR, RO, RP.
  unfold AD_MACRO, q. rewrite ad_full_match; auto.
  - apply first_name; [exact Hm|]. apply mods_head; reflexivity.
  - apply opt_comma.
  - apply mods_chars.
Qed.
Lemma step_define_macro inc st0 st d name l rest : (0 <= d)%Z -> macro_name name -> Forall (at_most_digits 4) l ->
  (l = [] -> forall r, name <> T "C" ++ r) ->
  exists t, to_gerber st0 (SAD d name [l]) = Ok t /\
  parse_step inc st (t ++ rest) = Some (Ok ([SAD d name [l]], st, rest)).
Proof. intros. apply step_define_macro_gen; auto. now apply reads4_exact. Qed.

(** ** Shapes of the written commands *)

(** Characters that neither end a command nor a line. *)
Definition plain (c : ascii) : bool := negb (char_in c (T "*%" ++ [nl; cr])).
(** Characters allowed inside a parameter. *)
Definition inner (c : ascii) : bool := negb (char_in c (T "%" ++ [nl; cr])).

Definition param_shape (t : text) : Prop := exists b, t = T "%" ++ b ++ T "%" /\ forallb inner b = true.
Definition data_shape (t : text) : Prop :=
  exists b, t = b ++ T "*" /\ forallb plain b = true /\
            match b with c :: _ => is_space c = false /\ c <> "%"%char | [] => False end.
Definition cmd_shape (t : text) : Prop := param_shape t \/ data_shape t.

Definition param_shapeb (t : text) : bool :=
  match t with
  | c :: r => ceq c "%"%char && ceq (List.last r "0"%char) "%"%char && forallb inner (removelast r)
  | [] => false
  end.
Definition data_shapeb (t : text) : bool :=
  ceq (List.last t "0"%char) "*"%char && forallb plain (removelast t) &&
  match removelast t with c :: _ => negb (is_space c) && negb (ceq c "%"%char) | [] => false end.

Lemma param_shapeb_ok t : param_shapeb t = true -> param_shape t.
Proof.
  destruct t as [|c r]; [discriminate|]. unfold param_shapeb. intros H.
  apply andb_prop in H as [H H3]. apply andb_prop in H as [H1 H2].
  apply ceq_true in H1. apply ceq_true in H2. subst c. destruct r as [|x r]; [discriminate H2|].
  exists (removelast (x :: r)). split; [|exact H3]. rewrite (app_removelast_last "0"%char (l := x :: r)) at 1 by discriminate.
  rewrite H2. reflexivity.
Qed.

Lemma data_shapeb_ok t : data_shapeb t = true -> data_shape t.
Proof.
  destruct t as [|x r]; [discriminate|]. unfold data_shapeb. intros H.
  apply andb_prop in H as [H H3]. apply andb_prop in H as [H1 H2]. apply ceq_true in H1.
  exists (removelast (x :: r)). split.
  - rewrite (app_removelast_last "0"%char (l := x :: r)) at 1 by discriminate. rewrite H1. reflexivity.
  - split; [exact H2|]. destruct (removelast (x :: r)); [discriminate|]. apply andb_prop in H3 as [A B].
    apply Bool.negb_true_iff in A. apply Bool.negb_true_iff in B. split; [exact A|]. intros ->. discriminate B.
Qed.

Lemma digits_forall (p : ascii -> bool) s : (forall c, is_digit c = true -> p c = true) -> all_digits s = true -> forallb p s = true.
Proof.
  intros H D. unfold all_digits in D. apply forallb_forall. intros x Hx. rewrite forallb_forall in D. auto.
Qed.

Lemma digit_plain c : is_digit c = true -> plain c = true.
Proof.
  intros D. unfold plain, char_in. cbn [T list_ascii_of_string app existsb].
  rewrite !(digit_neq c) by (auto; reflexivity). reflexivity.
Qed.
Lemma digit_inner c : is_digit c = true -> inner c = true.
Proof.
  intros D. unfold inner, char_in. cbn [T list_ascii_of_string app existsb].
  rewrite !(digit_neq c) by (auto; reflexivity). reflexivity.
Qed.

Lemma number_plain t : number_text t -> forallb plain t = true.
Proof.
  intros (neg & ds & -> & D & _). rewrite forallb_app, (digits_forall plain ds) by auto using digit_plain.
  destruct neg; reflexivity.
Qed.

Lemma field_plain c t : forallb plain (T c) = true -> opt_number t -> forallb plain (field_text c t) = true.
Proof.
  intros Hc Ht. destruct t as [t|]; [|reflexivity]. unfold field_text. now rewrite forallb_app, Hc, number_plain.
Qed.

Lemma in_plain l (o : option text) : forallb (forallb plain) l = true -> from_list l o -> forallb plain (opt_text o) = true.
Proof. intros H Ho. destruct o as [t|]; [|reflexivity]. rewrite forallb_forall in H. now apply H. Qed.

Lemma coord_shape fn tx ty ti tj op : from_list functions fn -> from_list operations op ->
  opt_number tx -> opt_number ty -> opt_number ti -> opt_number tj ->
  coord_text fn tx ty ti tj op <> T "*" -> data_shape (coord_text fn tx ty ti tj op).
Proof.
  intros Hfn Hop Hx Hy Hi Hj N.
  exists (opt_text fn ++ field_text "X" tx ++ field_text "Y" ty ++ field_text "I" ti ++ field_text "J" tj ++ opt_text op).
  split; [unfold coord_text; now rewrite <- !app_assoc|]. split.
  - rewrite !forallb_app, !field_plain by auto. rewrite (in_plain functions), (in_plain operations) by auto. reflexivity.
  - unfold coord_text in N. destruct fn as [f|].
    { cbn in Hfn. repeat (destruct Hfn as [<-|Hfn]; [split; [reflexivity|discriminate]|]). destruct Hfn. }
    destruct tx; [split; [reflexivity|discriminate]|]. destruct ty; [split; [reflexivity|discriminate]|].
    destruct ti; [split; [reflexivity|discriminate]|]. destruct tj; [split; [reflexivity|discriminate]|].
    destruct (ops_head op Hop) as [E|[q E]]; cbn [opt_text field_text app] in *; rewrite E in *; [now apply N|].
    split; [reflexivity|discriminate].
Qed.

Lemma mods_inner l : forallb inner (mods_comma l ++ mods_text l) = true.
Proof.
  rewrite forallb_app. apply andb_true_intro. split; [destruct l; reflexivity|].
  apply forallb_forall. intros x Hx. pose proof (join_X_chars l) as J. rewrite forallb_forall in J.
  specialize (J x Hx). unfold inner, char_in. cbn [T list_ascii_of_string app existsb].
  destruct (ceq_spec x "%"%char) as [->|]; [discriminate J|]. destruct (ceq_spec x nl) as [->|]; [discriminate J|].
  destruct (ceq_spec x cr) as [->|]; [discriminate J|]. reflexivity.
Qed.

Lemma show_int_inner d : forallb inner (show_int d) = true.
Proof.
  unfold show_int. destruct (d <? 0)%Z; [cbn [forallb]|]; rewrite (digits_forall inner (show_nat _)) by (auto using digit_inner; apply show_nat_digits);
  reflexivity.
Qed.

Lemma ad_shape st d shape l t : to_gerber st (SAD d shape [l]) = Ok t -> forallb inner shape = true -> param_shape t.
Proof.
  intros H Hs. destruct (ad_text st d shape l []) as (t' & H' & E). rewrite H in H'. apply ok_inj in H'. subst t'.
  rewrite !app_nil_r in E. subst t.
  exists (T "ADD" ++ show_int d ++ shape ++ (mods_comma l ++ mods_text l) ++ T "*"). split.
  - cbn [T list_ascii_of_string app]. now rewrite <- !app_assoc.
  - rewrite !forallb_app, show_int_inner, Hs. pose proof (mods_inner l) as M. rewrite forallb_app in M. rewrite M. reflexivity.
Qed.

Lemma name_inner name : macro_name name -> forallb inner name = true.
Proof.
  destruct name as [|c n]; [intros []|]. intros (Hc & _ & Hn).
  assert (F : forallb inner (letter ++ T "0123456789+-") = true) by reflexivity. rewrite forallb_forall in F.
  cbn [forallb]. rewrite F by (apply in_or_app; now left). cbn. apply forallb_forall. intros x Hx.
  rewrite Forall_forall in Hn. auto.
Qed.

(** ** Every writable statement is read back, consuming exactly its text *)

Definition same_numbers (st st' : pset) (s : stmt) : Prop :=
  (p_zs st' = p_zs st /\ p_fmt st' = p_fmt st) \/ match s with SCoord _ _ _ _ _ _ => False | _ => True end.

Lemma per_rest (r : res text) (P : text -> text -> Prop) (Q : text -> Prop) :
  (forall rest, exists t, r = Ok t /\ P t rest) -> (forall t, r = Ok t -> Q t) ->
  exists t, r = Ok t /\ (forall rest, P t rest) /\ Q t.
Proof.
  intros H HQ. destruct (H []) as (t & E & _). exists t. split; [exact E|]. split; [|auto]. intros rest.
  destruct (H rest) as (t' & E' & Hp). rewrite E in E'. apply ok_inj in E'. now subst.
Qed.

Ltac fixed_param := intros t Ht; cbn in Ht; apply ok_inj in Ht; subst t.

Lemma step_writable inc st st' s : announceable st -> writable st s -> same_numbers st st' s ->
  exists t, to_gerber st s = Ok t /\
    (forall rest, parse_step inc st' (t ++ rest) = Some (Ok ([s], after st' s, rest))) /\ cmd_shape t.
Proof.
  intros Hs W SN. destruct W.
  - (* coordinate *)
    destruct SN as [[Ez Ef]|[]].
    destruct (step_coord inc st st' fn x y i j op Hs Ez Ef ltac:(now constructor)) as (t & Et & Hp & tx & ty & ti & tj & E & Nx & Ny & Ni & Nj).
    exists t. split; [exact Et|]. split; [exact Hp|]. right. subst t. apply coord_shape; auto.
    intros C. specialize (Hp []). rewrite app_nil_r, C in Hp. cbn in Hp. discriminate Hp.
  - apply per_rest; [intros; apply step_aperture; auto|]. intros t Ht. right. cbn in Ht. apply ok_inj in Ht. subst t.
    exists (T "D" ++ show_int d). split; [now rewrite <- app_assoc|]. split.
    + rewrite forallb_app. unfold show_int. destruct (Z.ltb_spec d 0); [lia|].
      rewrite (digits_forall plain (show_nat _)) by (auto using digit_plain; apply show_nat_digits). reflexivity.
    + split; [reflexivity|discriminate].
  - apply per_rest; [intros; apply step_aperture; auto|]. intros t Ht. right. cbn in Ht. apply ok_inj in Ht. subst t.
    exists (T "G54D" ++ show_int d). split; [now rewrite <- app_assoc|]. split.
    + rewrite forallb_app. unfold show_int. destruct (Z.ltb_spec d 0); [lia|].
      rewrite (digits_forall plain (show_nat _)) by (auto using digit_plain; apply show_nat_digits). reflexivity.
    + split; [reflexivity|discriminate].
  - apply per_rest; [intros; apply step_polarity|]. intros t Ht. left. destruct p; apply ok_inj in Ht; subst t; apply param_shapeb_ok; reflexivity.
  - apply per_rest; [intros; now apply step_format|]. intros t Ht. left. cbn [to_gerber] in Ht. apply ok_inj in Ht. subst t.
    unfold fs_to_gerber. set (sf := show_fmt (p_fmt st)).
    exists (T "FS" ++ (match p_zs st with Leading => T "L" | _ => T "T" end) ++ (if p_abs st then T "A" else T "I") ++
            T "X" ++ sf ++ T "Y" ++ sf ++ T "*"). split.
    + change (T "%FS") with (T "%" ++ T "FS"). change (T "*%") with (T "*" ++ T "%"). now rewrite <- !app_assoc.
    + assert (F : forallb inner (show_fmt (p_fmt st)) = true).
      { unfold show_fmt. rewrite forallb_app, !(digits_forall inner (show_nat _)) by (auto using digit_inner; apply show_nat_digits). reflexivity. }
      fold sf in F. rewrite !forallb_app, F. destruct (p_zs st), (p_abs st); reflexivity.
  - apply per_rest; [intros; apply step_units|]. intros t Ht. left. destruct u; apply ok_inj in Ht; subst t; apply param_shapeb_ok; reflexivity.
  - apply per_rest; [intros; apply step_region|]. intros t Ht. right. destruct m; apply ok_inj in Ht; subst t; apply data_shapeb_ok; reflexivity.
  - apply per_rest; [intros; apply step_quadrant|]. intros t Ht. right. destruct q; apply ok_inj in Ht; subst t; apply data_shapeb_ok; reflexivity.
  - apply per_rest; [intros; now apply step_comment|]. intros t Ht. right. cbn [to_gerber] in Ht. apply ok_inj in Ht. subst t.
    exists (T "G04" ++ c). split; [now rewrite <- app_assoc|]. split; [|split; [reflexivity|discriminate]].
    rewrite forallb_app. cbn [andb]. apply andb_true_intro. split; [reflexivity|]. apply forallb_forall. intros x Hx.
    rewrite Forall_forall in H. unfold plain. apply Bool.negb_true_iff. apply char_in_false. auto.
  - apply per_rest; [intros; apply step_eof|]. intros t Ht. right. apply ok_inj in Ht; subst t. exists (T "M02").
    split; [reflexivity|split; [reflexivity|split; [reflexivity|discriminate]]].
  - apply per_rest; [intros; apply step_image_polarity|]. intros t Ht. left. destruct p; apply ok_inj in Ht; subst t; apply param_shapeb_ok; reflexivity.
  - apply per_rest; [intros; now apply step_axis|]. intros t Ht. left.
    destruct H as [<-|[<-|[]]]; apply ok_inj in Ht; subst t; apply param_shapeb_ok; reflexivity.
  - apply per_rest; [intros; apply step_rotation|]. intros t Ht. left. cbn [to_gerber] in Ht. apply ok_inj in Ht. subst t.
    exists (T "IR" ++ show_int a ++ T "*"). split; [cbn [T list_ascii_of_string app]; now rewrite <- app_assoc|].
    rewrite !forallb_app, show_int_inner. reflexivity.
  - apply per_rest; [intros; now apply step_mirror|]. intros t Ht. left.
    destruct H as [<-|[<-|[]]], H0 as [<-|[<-|[]]]; apply ok_inj in Ht; subst t; apply param_shapeb_ok; reflexivity.
  - apply per_rest; [intros; now apply step_define_circle|]. intros t Ht. left. now apply (ad_shape st d (T "C") l).
  - apply per_rest; [intros; now apply step_define_other|]. intros t Ht. left. apply (ad_shape st d shape l); [exact Ht|].
    destruct H0 as [<-|[<-|[<-|[]]]]; reflexivity.
  - apply per_rest; [intros; now apply step_define_macro|]. intros t Ht. left. apply (ad_shape st d name l); [exact Ht|].
    now apply name_inner.
Qed.

(** ** Parameters with a free text *)

Lemma free_text_match kw g name : forallb dot name = true -> kw <> EmptyString ->
  re_match (param_wrap (seqs [G "param" (L kw); G g (Star dot)])) (T "%" ++ T kw ++ name ++ T "*%") =
  Some ([(T g, name); (T "param", T kw)], []).
Proof.
  intros Hn _. eapply first_match. unfold param_wrap. cbn [seqs].
  replace [(T g, name); (T "param", T kw)] with (([] ++ ([(T g, name)] ++ [(T "param", T kw)])) ++ []) by reflexivity.
  eapply first_seq; [apply first_opt, (first_lit (T "%"))|].
  eapply (first_seq_back _ _ _ (T kw ++ name) _ (T "*%")).
  - eapply (firstb_seq _ _ _ (T kw) [(T "param", T kw)]); [apply (first_grp (T "param")), first_lit|].
    apply (firstb_grp (T g)). change (T "*%") with (T "*%" ++ []). apply firstb_star; [|exact I|].
    + rewrite forallb_app, Hn. reflexivity.
    + intros x1 x2 N E. destruct x1 as [|a x1]; [contradiction|]. injection E as _ E.
      destruct x1 as [|b x1]; [cbn [app] in E; subst x2; reflexivity|]. injection E as _ E.
      destruct x1; [cbn [app] in E; subst x2; reflexivity|discriminate E].
  - eexists. reflexivity.
Qed.

Lemma inner_dot name : Forall (fun x => ~ In x (T "%" ++ [nl; cr])) name -> forallb dot name = true.
Proof.
  intros H. apply forallb_forall. intros x Hx. rewrite Forall_forall in H. specialize (H x Hx).
  unfold dot. apply Bool.negb_true_iff. apply ceq_false. intros ->. apply H. cbn. auto.
Qed.

Lemma image_name_fails q : Forall (fun r => re_match r (T "%IN" ++ q) = None)
  ([COORD_STMT; APERTURE_STMT] ++ map param_wrap [FS; MO; LP; AD_CIRCLE; AD_RECT; AD_OBROUND; AD_POLY; AD_MACRO; AM; AS; IF_]).
Proof. repeat constructor. Qed.
Lemma layer_name_fails q : Forall (fun r => re_match r (T "%LN" ++ q) = None)
  ([COORD_STMT; APERTURE_STMT] ++ map param_wrap [FS; MO; LP; AD_CIRCLE; AD_RECT; AD_OBROUND; AD_POLY; AD_MACRO; AM; AS; IF_; IN; IP; IR; MI; OF; SF]).
Proof. repeat constructor. Qed.
Lemma include_fails q : Forall (fun r => re_match r (T "%IF" ++ q) = None)
  ([COORD_STMT; APERTURE_STMT] ++ map param_wrap [FS; MO; LP; AD_CIRCLE; AD_RECT; AD_OBROUND; AD_POLY; AD_MACRO; AM; AS]).
Proof. repeat constructor. Qed.

Lemma many_skip l r l' s m : Forall (fun r => re_match r s = None) l -> re_match r s = Some m ->
  match_one_from_many (l ++ r :: l') s = Some m.
Proof. intros F H. induction F as [|x l E F IH]; cbn [match_one_from_many app]; [now rewrite H|now rewrite E]. Qed.

Lemma param_step inc st pre r post line g rest : PARAM_STMT = pre ++ r :: post ->
  Forall (fun r => re_match r line = None) ([COORD_STMT; APERTURE_STMT] ++ pre) ->
  re_match r line = Some (g, rest) -> (exists q, line = T "%" ++ q) ->
  parse_step inc st line = Some (param_stmt inc st g rest).
Proof.
  intros E F H [q Eq]. apply Forall_app in F as [F Fp]. inversion F as [|? ? F1 F']; subst x l. inversion F' as [|? ? F2 _]; subst.
  unfold parse_step. cbn [T list_ascii_of_string app]. change (ceq "%" "*") with false. cbv iota.
  cbn [T list_ascii_of_string app] in *.
  rewrite F1, F2, E, (many_skip _ _ _ _ _ Fp H). reflexivity.
Qed.

Lemma step_image_name inc st n : Forall (fun x => ~ In x (T "%" ++ [nl; cr])) n ->
  parse_step inc st (T "%IN" ++ n ++ T "*%") = Some (Ok ([SIN n], st, [])).
Proof.
  intros H. erewrite (param_step _ _ (map param_wrap [FS; MO; LP; AD_CIRCLE; AD_RECT; AD_OBROUND; AD_POLY; AD_MACRO; AM; AS; IF_]) (param_wrap IN) (map param_wrap [IP; IR; MI; OF; SF; LN])).
  2: reflexivity. 2: apply image_name_fails. 2: apply (free_text_match "IN" "name"); [now apply inner_dot|discriminate].
  2: eexists; reflexivity. reflexivity.
Qed.
Lemma step_layer_name inc st n : Forall (fun x => ~ In x (T "%" ++ [nl; cr])) n ->
  parse_step inc st (T "%LN" ++ n ++ T "*%") = Some (Ok ([SLN n], st, [])).
Proof.
  intros H. erewrite (param_step _ _ (map param_wrap [FS; MO; LP; AD_CIRCLE; AD_RECT; AD_OBROUND; AD_POLY; AD_MACRO; AM; AS; IF_; IN; IP; IR; MI; OF; SF]) (param_wrap LN) []).
  2: reflexivity. 2: apply layer_name_fails. 2: apply (free_text_match "LN" "name"); [now apply inner_dot|discriminate].
  2: eexists; reflexivity. reflexivity.
Qed.
Lemma step_include inc st n : Forall (fun x => ~ In x (T "%" ++ [nl; cr])) n ->
  parse_step inc st (T "%IF" ++ n ++ T "*%") = Some (do x <- inc n st; let '(l, st') := x in Ok (l, st', [])).
Proof.
  intros H. erewrite (param_step _ _ (map param_wrap [FS; MO; LP; AD_CIRCLE; AD_RECT; AD_OBROUND; AD_POLY; AD_MACRO; AM; AS]) (param_wrap IF_) (map param_wrap [IN; IP; IR; MI; OF; SF; LN])).
  2: reflexivity. 2: apply include_fails. 2: apply (free_text_match "IF" "filename"); [now apply inner_dot|discriminate].
  2: eexists; reflexivity. reflexivity.
Qed.

Lemma inner_forallb n : Forall (fun x => ~ In x (T "%" ++ [nl; cr])) n -> forallb inner n = true.
Proof.
  intros H. apply forallb_forall. intros x Hx. rewrite Forall_forall in H. unfold inner.
  apply Bool.negb_true_iff. apply char_in_false. auto.
Qed.

Lemma free_shape kw n : forallb inner (T kw) = true -> Forall (fun x => ~ In x (T "%" ++ [nl; cr])) n ->
  param_shape (T "%" ++ T kw ++ n ++ T "*%").
Proof.
  intros Hk Hn. exists (T kw ++ n ++ T "*"). split.
  - change (T "*%") with (T "*" ++ T "%"). now rewrite <- !app_assoc.
  - now rewrite !forallb_app, Hk, (inner_forallb n Hn).
Qed.

(** ** Image offsets and scale factors *)

Definition sign_text (neg : bool) : text := if neg then T "-" else [].
Lemma first_decimal (neg : bool) a b r : all_digits a = true -> a <> [] -> all_digits b = true -> b <> [] -> nohead is_digit r ->
  first DECIMAL ((sign_text neg ++ a ++ T "." ++ b) ++ r) (sign_text neg ++ a ++ T "." ++ b, [], r).
Proof.
  intros Da Na Db Nb Hr. unfold DECIMAL. cbn [seqs]. rewrite <- !app_assoc.
  apply (first_seq (Opt (Cls (one_of "+-"))) _ _ (sign_text neg) [] (a ++ T "." ++ b ++ r) (a ++ T "." ++ b) [] r).
  - destruct neg; [apply first_opt, first_cls; reflexivity|]. cbn [sign_text app]. apply first_opt_skip. destruct a as [|c a]; [contradiction|].
    cbn [app rm]. cbn in Da. apply andb_prop in Da as [Dc _]. unfold one_of. cbn [T list_ascii_of_string]. unfold char_in. cbn [existsb]. now rewrite !(digit_neq c) by auto.
  - apply (first_seq (Plus_ is_digit) _ _ a [] (T "." ++ b ++ r) (T "." ++ b) [] r); [now apply first_plus_digits|].
    apply first_opt. apply (first_seq (Opt (L ".")) _ _ (T ".") [] (b ++ r) b [] r); [apply first_opt, first_lit|now apply first_plus_digits].
Qed.
Lemma offset_fails q : Forall (fun r => re_match r (T "%OF" ++ q) = None)
  ([COORD_STMT; APERTURE_STMT] ++ map param_wrap [FS; MO; LP; AD_CIRCLE; AD_RECT; AD_OBROUND; AD_POLY; AD_MACRO; AM; AS; IF_; IN; IP; IR; MI]).
Proof. repeat constructor. Qed.
Lemma offset_match n1 a1 b1 n2 a2 b2 rest : all_digits a1 = true -> a1 <> [] -> all_digits b1 = true -> b1 <> [] -> all_digits a2 = true -> a2 <> [] -> all_digits b2 = true -> b2 <> [] ->
  re_match (param_wrap OF) (T "%OFA" ++ (sign_text n1 ++ a1 ++ T "." ++ b1) ++ T "B" ++ (sign_text n2 ++ a2 ++ T "." ++ b2) ++ T "*%" ++ rest) =
  Some ([(T "b", sign_text n2 ++ a2 ++ T "." ++ b2); (T "a", sign_text n1 ++ a1 ++ T "." ++ b1); (T "param", T "OF")], rest).
Proof.
  intros A1 N1 B1 M1 A2 N2 B2 M2. eapply first_match. unfold param_wrap, OF. cbn [seqs].
  set (x := sign_text n1 ++ a1 ++ T "." ++ b1). set (y := sign_text n2 ++ a2 ++ T "." ++ b2).
  change [(T "b", y); (T "a", x); (T "param", T "OF")] with (((([] ++ []) ++ ((([(T "b", y)] ++ []) ++ ([(T "a", x)] ++ [])) ++ [(T "param", T "OF")])) ++ [])).
  change (T "%OFA" ++ x ++ T "B" ++ y ++ T "*%" ++ rest) with (T "%" ++ T "OF" ++ T "A" ++ x ++ T "B" ++ y ++ T "*" ++ T "%" ++ rest).
  eapply first_seq; [apply first_opt, first_lit|]. eapply first_seq.
  - eapply first_seq; [apply first_grp, first_lit|]. eapply first_seq.
    + apply first_opt. eapply first_seq; [apply first_lit|]. apply first_grp. apply first_decimal; auto. reflexivity.
    + apply first_opt. eapply first_seq; [apply first_lit|]. apply first_grp. apply first_decimal; auto. reflexivity.
  - eapply first_seq; [apply first_lit|]. apply first_opt, first_lit.
Qed.
Lemma five_text v : five_places v -> exists neg a b, decimal_string v 5 false = sign_text neg ++ a ++ T "." ++ b /\ all_digits a = true /\ a <> [] /\ all_digits b = true /\ b <> [] /\ py_float (sign_text neg ++ a ++ T "." ++ b) = Ok v.
Proof.
  intros (k & -> & K & H). destruct (C64_lemma k 5 5 false K (le_n 5)) as (a & b & D & Da & Na & Db & V & _ & _ & Nb); [destruct H as [->|H]; [now left|right]; change (10 ^ Z.of_nat 5)%Z with 100000%Z; lia|].
  exists (k <? 0)%Z, a, b. specialize (Nb ltac:(lia)). apply digit_string_iff in Da, Db. split; [exact D|]. repeat (split; [assumption|]).
  pose proof (py_float_signed (if (k <? 0)%Z then Some true else None) a b Da Db ltac:(now destruct a)) as P.
  rewrite !grid_dec, int_of_dval in V by (apply digit_string_iff; rewrite all_digits_app, Da, Db; reflexivity). rewrite V in P. rewrite grid_dec. unfold sign_text.
  destruct (Z.ltb_spec k 0) as [L|L]; cbn [T list_ascii_of_string app] in *; rewrite P; f_equal.
  - unfold sgn. rewrite Z.abs_neq by lia. rewrite <- dec_opp. f_equal. lia.
  - unfold sgn. now rewrite Z.abs_eq by lia.
Qed.
Lemma digits_inner a : all_digits a = true -> forallb inner a = true.
Proof.
  intros D. apply forallb_forall. intros c H. pose proof (all_digits_in a c D H) as Dc. unfold inner, char_in. cbn [T list_ascii_of_string app existsb].
  now rewrite !(digit_neq c) by auto.
Qed.
Lemma decimal_inner neg a b : all_digits a = true -> all_digits b = true -> forallb inner (sign_text neg ++ a ++ T "." ++ b) = true.
Proof. intros A B. rewrite !forallb_app, (digits_inner a A), (digits_inner b B). now destruct neg. Qed.
Lemma step_offset inc st0 st a b rest : five_places a -> five_places b -> exists t, to_gerber st0 (SOF (Some a) (Some b)) = Ok t /\ parse_step inc st (t ++ rest) = Some (Ok ([SOF (Some a) (Some b)], st, rest)) /\ cmd_shape t.
Proof.
  intros A B. eexists. split; [reflexivity|]. cbn [opt_field]. destruct (five_text a A) as (n1 & a1 & b1 & -> & D1 & N1 & E1 & M1 & F1). destruct (five_text b B) as (n2 & a2 & b2 & -> & D2 & N2 & E2 & M2 & F2).
  pose proof (offset_match n1 a1 b1 n2 a2 b2 rest D1 N1 E1 M1 D2 N2 E2 M2) as M.
  assert (forallb inner (sign_text n1 ++ a1 ++ T "." ++ b1) = true) as X by now apply decimal_inner.
  assert (forallb inner (sign_text n2 ++ a2 ++ T "." ++ b2) = true) as Y by now apply decimal_inner.
  set (x := sign_text n1 ++ a1 ++ T "." ++ b1) in *. set (y := sign_text n2 ++ a2 ++ T "." ++ b2) in *.
  split; [|left; exists (T "OF" ++ (T "A" ++ x) ++ (T "B" ++ y) ++ T "*"); split; [change (T "*%") with (T "*" ++ T "%"); now rewrite <- !app_assoc|now rewrite !forallb_app, X, Y]].
  replace ((T "%OF" ++ (T "A" ++ x) ++ (T "B" ++ y) ++ T "*%") ++ rest) with (T "%OF" ++ T "A" ++ x ++ T "B" ++ y ++ T "*%" ++ rest) by now rewrite <- !app_assoc.
  etransitivity; [apply (param_step inc st (map param_wrap [FS; MO; LP; AD_CIRCLE; AD_RECT; AD_OBROUND; AD_POLY; AD_MACRO; AM; AS; IF_; IN; IP; IR; MI]) (param_wrap OF) (map param_wrap [SF; LN]) _ _ rest eq_refl (offset_fails _) M); eexists; reflexivity|].
  change (param_stmt inc st [(T "b", y); (T "a", x); (T "param", T "OF")] rest) with (do s <- (do u <- py_float x; do w <- py_float y; Ok (SOF (Some u) (Some w))); Ok ([s], st, rest)). now rewrite F1, F2.
Qed.
Lemma step_scale inc st0 st : exists t, to_gerber st0 (SSF (Some 1) (Some 1)) = Ok t /\ parse_step inc st t = Some (Ok ([SSF (Some 1) (Some 1)], st, [])) /\ cmd_shape t.
Proof. eexists. split; [vm_compute; reflexivity|]. split; [reflexivity|]. left. exists (T "SFA1.0B1.0*"). split; reflexivity. Qed.

(** Every statement that can stand on a line of its own is read back from it. *)
Lemma step_line inc st st' s : announceable st -> line_writable st s -> same_numbers st st' s ->
  exists t, to_gerber st s = Ok t /\ parse_step inc st' t = Some (Ok ([s], after st' s, [])) /\ cmd_shape t.
Proof.
  intros Hs W SN. destruct W as [s W|n Hn|n Hn|t Ht|a b Ha Hb|].
  - destruct (step_writable inc st st' s Hs W SN) as (t & E & P & C). exists t. split; [exact E|]. split; [|exact C].
    specialize (P []). now rewrite app_nil_r in P.
  - eexists. split; [reflexivity|]. split; [now apply step_image_name|]. left. now apply (free_shape "IN").
  - eexists. split; [reflexivity|]. split; [now apply step_layer_name|]. left. now apply (free_shape "LN").
  - exists t. split; [reflexivity|]. destruct Ht as [<-|[<-|[]]]; (split; [reflexivity|right; apply data_shapeb_ok; reflexivity]).
  - destruct (step_offset inc st st' a b [] Ha Hb) as (t & E & P & C). exists t. rewrite app_nil_r in P. auto.
  - destruct (step_scale inc st st') as (t & E & P & C). exists t. auto.
Qed.

(** ** Lines are split back into the commands *)

Lemma split_run p hdr : (forall c, p c = true -> ceq c "%"%char = false /\ is_nl c = false /\ negb hdr && ceq c "*"%char = false) ->
  forall b cur rest, forallb p b = true -> split_loop cur hdr (b ++ rest) = split_loop (cur ++ b) hdr rest.
Proof.
  intros Hp. induction b as [|c b IH]; intros cur rest H; [now rewrite app_nil_r|].
  cbn [forallb] in H. apply andb_prop in H as [Hc H]. destruct (Hp c Hc) as (E1 & E2 & E3).
  cbn [app split_loop]. rewrite E1, E2, E3. cbn [andb]. rewrite Bool.andb_false_r. rewrite IH by exact H.
  now rewrite <- app_assoc.
Qed.

Lemma inner_not c : inner c = true -> ceq c "%"%char = false /\ is_nl c = false.
Proof.
  unfold inner, char_in, is_nl. cbn [T list_ascii_of_string app existsb].
  destruct (ceq c "%"%char), (ceq c nl), (ceq c cr); cbn; auto.
Qed.
Lemma plain_not c : plain c = true -> ceq c "%"%char = false /\ is_nl c = false /\ ceq c "*"%char = false.
Proof.
  unfold plain, char_in, is_nl. cbn [T list_ascii_of_string app existsb].
  destruct (ceq c "%"%char), (ceq c nl), (ceq c cr), (ceq c "*"%char); cbn; auto.
Qed.

Lemma split_command t hdr : cmd_shape t -> exists hdr', forall data,
  split_loop [] hdr (t ++ nl :: data) = (t :: fst (split_loop [] hdr' data), snd (split_loop [] hdr' data)).
Proof.
  intros [(b & -> & Hb)|(b & -> & Hb & Hh)].
  - exists false. intros data. cbn [T list_ascii_of_string app split_loop]. change (ceq "%" "%") with true. cbn [andb].
    rewrite <- app_assoc. rewrite (split_run inner true) by
      (try exact Hb; intros c Hc; destruct (inner_not c Hc) as [A B]; auto).
    cbn [T list_ascii_of_string app split_loop]. change (ceq "%" "%") with true. change (is_nl "%") with false. cbn [andb negb].
    change (is_nl nl) with true. change (ceq nl "%") with false. cbv iota. cbn [andb].
    destruct (split_loop [] false data) as [ys z]. cbn [fst snd]. reflexivity.
  - destruct hdr.
    + exists true. intros data. rewrite <- app_assoc. rewrite (split_run plain true) by
        (try exact Hb; intros c Hc; destruct (plain_not c Hc) as (A & B & C); auto).
      cbn [T list_ascii_of_string app split_loop]. change (ceq "*" "%") with false. change (is_nl "*") with false. cbn [andb negb].
      change (is_nl nl) with true. change (ceq nl "%") with false. cbv iota. cbn [andb].
      destruct (split_loop [] true data) as [ys z]. cbn [fst snd]. now destruct b.
    + exists false. intros data. rewrite <- app_assoc. rewrite (split_run plain false) by
        (try exact Hb; intros c Hc; destruct (plain_not c Hc) as (A & B & C); rewrite C; auto).
      cbn [T list_ascii_of_string app split_loop]. change (ceq "*" "%") with false. change (ceq "*" "*") with true.
      change (is_nl "*") with false. cbn [andb negb].
      change (is_nl nl) with true. change (ceq nl "%") with false. cbv iota. cbn [andb].
      destruct (split_loop [] false data) as [ys z]. cbn [fst snd]. reflexivity.
Qed.

(** ** A command is stripped, complete and read by the statement loop *)

Lemma cmd_not_continued t : cmd_shape t -> strip t = t /\ t <> [] /\ continues t = false.
Proof.
  intros [(b & -> & Hb)|(b & -> & Hb & Hh)].
  - split; [|split; [discriminate|]].
    + apply strip_ends. split; [reflexivity|]. rewrite !app_assoc, rev_app_distr. reflexivity.
    + unfold continues, ends_with_percent. rewrite !app_assoc, rev_app_distr. cbn [T list_ascii_of_string rev app].
      change (ceq "%" "%") with true. cbn [negb]. now rewrite Bool.andb_false_r.
  - destruct b as [|c b]; [destruct Hh|]. destruct Hh as [Hsp Hne]. split; [|split; [discriminate|]].
    + apply strip_ends. split; [exact Hsp|]. rewrite rev_app_distr. reflexivity.
    + unfold continues. cbn [T list_ascii_of_string app starts_with]. apply ceq_false in Hne.
      unfold ceq in *. rewrite Ascii.eqb_sym in Hne. now rewrite Hne.
Qed.

Lemma parse_one_cmd inc st t l st' data : cmd_shape t -> parse_step inc st t = Some (Ok (l, st', [])) ->
  parse_cmds inc st [] (t :: data) = do o <- parse_cmds inc st' [] data; let '(l', st'') := o in Ok (l ++ l', st'').
Proof.
  intros C H. destruct (cmd_not_continued t C) as (S & N & K). cbn [parse_cmds]. rewrite S. cbn [app].
  destruct t as [|c t]; [contradiction|]. rewrite K. cbn [parse_line List.length]. rewrite H. cbn [bind].
  replace (parse_step inc st' []) with (@None (res outcome)) by reflexivity. cbn [bind].
  destruct (parse_cmds inc st' [] data) as [[l' st'']|e]; cbn [bind]; [|reflexivity]. now rewrite app_nil_r.
Qed.
Lemma parse_one_err inc st t e data : cmd_shape t -> parse_step inc st t = Some (Err e) ->
  parse_cmds inc st [] (t :: data) = Err e.
Proof.
  intros C H. destruct (cmd_not_continued t C) as (S & N & K). cbn [parse_cmds]. rewrite S. cbn [app].
  destruct t as [|c t]; [contradiction|]. rewrite K. cbn [parse_line List.length]. rewrite H. reflexivity.
Qed.

Definition after_all (st : pset) (l : list stmt) : pset := fold_left after l st.
Definition numbers_agree (st st' : pset) : Prop := p_zs st' = p_zs st /\ p_fmt st' = p_fmt st.

Lemma after_agree st st' s : line_writable st s -> numbers_agree st st' -> numbers_agree st (after st' s).
Proof. intros W [A B]. destruct W as [s W|n ?|n ?|t ?|a b ? ?|]; try (split; assumption). destruct W; split; assumption || reflexivity. Qed.
Lemma after_format st st' zs ab f : line_writable st (SFS zs ab f) -> numbers_agree st (after st' (SFS zs ab f)).
Proof. intros W. inversion W as [s W'| | | | |]; subst. inversion W'; subst. split; reflexivity. Qed.

(** The statements still to come can be read under [st']. *)
Definition ready (st st' : pset) (l : list stmt) : Prop := numbers_agree st st' \/ format_before_coords l.
Lemma ready_same st st' s l : ready st st' (s :: l) -> same_numbers st st' s.
Proof. intros [H|H]; [now left|]. right. destruct s; auto. Qed.
Lemma ready_next st st' s l : line_writable st s -> ready st st' (s :: l) -> ready st (after st' s) l.
Proof.
  intros W [H|H]; [left; now apply after_agree|]. destruct s; try (right; exact H); [|destruct H].
  left. now apply after_format.
Qed.
Lemma ready_all st : forall l1 st' l2, Forall (line_writable st) l1 -> ready st st' (l1 ++ l2) -> ready st (after_all st' l1) l2.
Proof.
  induction l1 as [|s l1 IH]; intros st' l2 F R; [exact R|]. inversion F; subst. cbn. apply IH; [assumption|].
  now apply (ready_next st st' s).
Qed.
Lemma ready_app st st' l1 l2 : ready st st' (l1 ++ l2) -> ready st st' l1.
Proof.
  intros [H|H]; [now left|]. right. induction l1 as [|s l1 IH]; [exact I|]. cbn [app format_before_coords] in *. destruct s; auto.
Qed.

Lemma depicts_writable fs st d t l : depicts fs st d t l -> Forall (line_writable st) l.
Proof. induction 1; auto. apply Forall_app; auto. Qed.

(** ** Files, with includes *)

Lemma parse_data_eq depth fs st data : parse_data depth fs st data = parse_cmds
    (match depth with
     | O => fun _ _ => Err IOError
     | Datatypes.S n => fun name st' => do inc <- fs name; parse_data n fs st' inc
     end) st [] (split_commands data).
Proof. destruct depth; reflexivity. Qed.

Lemma parse_data_depicts fs st : announceable st -> forall d t l, depicts fs st d t l -> forall st' hdr, ready st st' l ->
  parse_cmds (match d with
     | O => fun _ _ => Err IOError
     | Datatypes.S n => fun name st' => do inc <- fs name; parse_data n fs st' inc
     end) st' [] (fst (split_loop [] hdr t)) = Ok (l, after_all st' l).
Proof.
  intros Hs. induction 1 as [d|d s t r l W E D IH|d name t r l l' Hn Ef D IH D' IH']; intros st' hdr R.
  - reflexivity.
  - match goal with |- parse_cmds ?i _ _ _ = _ =>
      destruct (step_line i st st' s Hs W (ready_same _ _ _ _ R)) as (t' & E' & P & C) end.
    rewrite E in E'. apply ok_inj in E'. subst t'. destruct (split_command t hdr C) as [hdr' Hd]. rewrite Hd. cbn [fst].
    rewrite (parse_one_cmd _ _ _ _ _ _ C P). rewrite (IH (after st' s) hdr') by now apply (ready_next st st' s). reflexivity.
  - assert (Hn' : Forall (fun x => ~ In x (T "%" ++ [nl; cr])) name).
    { eapply Forall_impl; [|exact Hn]. cbn. intros a Ha C. apply Ha. cbn. tauto. }
    assert (C : cmd_shape (T "%IF" ++ name ++ T "*%")) by (left; now apply (free_shape "IF")).
    destruct (split_command _ hdr C) as [hdr' Hd]. specialize (Hd r). rewrite <- !app_assoc in Hd. rewrite Hd. cbn [fst].
    erewrite parse_one_cmd; [|exact C|].
    2:{ rewrite step_include by exact Hn'. cbn beta iota. rewrite Ef. cbn [bind]. rewrite (parse_data_eq d).
        unfold split_commands. rewrite (IH st' true) by now apply (ready_app _ _ _ l'). cbn [bind]. reflexivity. }
    rewrite (IH' (after_all st' l) hdr') by (apply ready_all; [eapply depicts_writable; exact D|exact R]).
    cbn [bind]. unfold after_all. now rewrite fold_left_app.
Qed.

(** Writing succeeds and depicts the statements. *)
Lemma write_depicts fs st : announceable st -> forall l, Forall (line_writable st) l ->
  exists t, write_file st l = Ok t /\ forall d, depicts fs st d t l.
Proof.
  intros Hs. induction l as [|s l IH]; intros F.
  - exists []. split; [reflexivity|]. constructor.
  - inversion F as [|? ? W F']; subst. destruct (IH F') as (t & E & D).
    destruct (step_line (fun _ _ => Err IOError) st st s Hs W) as (u & Eu & _); [left; split; reflexivity|].
    exists (u ++ nl :: t). split; [cbn [write_file]; rewrite Eu; cbn [bind]; now rewrite E|].
    intros d. now constructor.
Qed.

Lemma depicts_read fs st d t l : announceable st -> depicts fs st d t l -> format_before_coords l ->
  forall st', parse_data d fs st' t = Ok (l, after_all st' l).
Proof.
  intros Hs D F st'. rewrite parse_data_eq. unfold split_commands. apply (parse_data_depicts fs st Hs); [exact D|now right].
Qed.

Lemma depicts_mono fs st d t l : depicts fs st d t l -> forall d', (d <= d')%nat -> depicts fs st d' t l.
Proof.
  induction 1 as [d|d s t r l W E D IH|d name t r l l' Hn Ef D IH D' IH']; intros d' L.
  - constructor.
  - constructor; auto.
  - destruct d' as [|d']; [lia|]. econstructor; eauto. apply IH. lia.
Qed.

(** Reading a text whose first part is read without error up to an include that fails. *)
Lemma include_fails_file st : announceable st -> forall l pre name r e, write_file st l = Ok pre ->
  Forall (line_writable st) l -> file_name name ->
  forall inc st' hdr, ready st st' l ->
  (forall st'', inc name st'' = Err e) ->
  parse_cmds inc st' [] (fst (split_loop [] hdr (pre ++ T "%IF" ++ name ++ T "*%" ++ nl :: r))) = Err e.
Proof.
  intros Hs. induction l as [|s l IH]; intros pre name r e Ew F Hn inc st' hdr R He.
  - cbn in Ew. apply ok_inj in Ew. subst pre. cbn [app].
    assert (Hn' : Forall (fun x => ~ In x (T "%" ++ [nl; cr])) name).
    { eapply Forall_impl; [|exact Hn]. cbn. intros a Ha C. apply Ha. cbn. tauto. }
    assert (C : cmd_shape (T "%IF" ++ name ++ T "*%")) by (left; now apply (free_shape "IF")).
    destruct (split_command _ hdr C) as [hdr' Hd]. specialize (Hd r). rewrite <- !app_assoc in Hd.
    etransitivity; [|apply (parse_one_err inc st' _ e (fst (split_loop [] hdr' r)) C)].
    + f_equal. now rewrite Hd.
    + rewrite step_include by exact Hn'. now rewrite He.
  - inversion F as [|? ? W F']; subst. cbn [write_file] in Ew.
    destruct (step_line inc st st' s Hs W (ready_same _ _ _ _ R)) as (u & Eu & P & C). rewrite Eu in Ew. cbn [bind] in Ew.
    destruct (write_file st l) as [q|] eqn:Eq; [|discriminate]. cbn [bind] in Ew. apply ok_inj in Ew. subst pre.
    destruct (split_command u hdr C) as [hdr' Hd]. rewrite <- app_assoc. cbn [app]. rewrite Hd. cbn [fst].
    rewrite (parse_one_cmd _ _ _ _ _ _ C P).
    rewrite (IH q name r e eq_refl F' Hn inc (after st' s) hdr') by (auto; now apply (ready_next st st' s)). reflexivity.
Qed.

(** ** Termination *)

Fixpoint minlen (r : re) : nat :=
  match r with
  | Eps => 0 | Lit t => List.length t | Cls _ => 1 | Star _ => 0 | Opt _ => 0
  | Seq a b => minlen a + minlen b
  | Alt a b => Nat.min (minlen a) (minlen b)
  | Grp _ r => minlen r
  end%nat.

Lemma minlen_ok r : forall s u cs t, In (u, cs, t) (rm r s) -> (minlen r <= List.length u)%nat.
Proof.
  induction r as [|l|p|p|r IH|a IHa b IHb|a IHa b IHb|n r IH]; intros s u cs t I; cbn [minlen]; try lia.
  - cbn [rm] in I. destruct (strip_prefix l s); [|destruct I]. destruct I as [I|[]]. injection I as <- _ _. lia.
  - cbn [rm] in I. destruct s as [|c s]; [destruct I|]. destruct (p c); [|destruct I]. destruct I as [I|[]]. injection I as <- _ _. cbn. lia.
  - cbn [rm] in I. apply in_flat_map in I as ([[u1 cs1] t1] & I1 & I). apply in_map_iff in I as ([[u2 cs2] t2] & E & I2).
    injection E as <- _ _. rewrite app_length. apply IHa in I1. apply IHb in I2. lia.
  - cbn [rm] in I. apply in_app_or in I as [I|I]; [apply IHa in I|apply IHb in I]; lia.
  - cbn [rm] in I. apply in_map_iff in I as ([[u2 cs2] t2] & E & I2). injection E as <- _ _. now apply IH in I2.
Qed.

Lemma re_match_progress r s cs t : re_match r s = Some (cs, t) -> (List.length t + minlen r <= List.length s)%nat.
Proof.
  intros H. unfold re_match in H. destruct (rm r s) as [|[[u c] t'] l] eqn:E; [discriminate|]. injection H as -> ->.
  assert (I : In (u, cs, t) (rm r s)) by (rewrite E; now left).
  pose proof (minlen_ok _ _ _ _ _ I). apply rm_used in I. subst s. rewrite app_length. lia.
Qed.

Lemma many_progress l s cs t : Forall (fun r => (1 <= minlen r)%nat) l -> match_one_from_many l s = Some (cs, t) ->
  (List.length t < List.length s)%nat.
Proof.
  induction l as [|r l IH]; intros F H; [discriminate|]. inversion F as [|? ? F1 F2]; subst. cbn [match_one_from_many] in H.
  destruct (re_match r s) as [[c q]|] eqn:E; [|auto]. injection H as -> ->. apply re_match_progress in E. lia.
Qed.

Lemma params_progress : Forall (fun r => (1 <= minlen r)%nat) PARAM_STMT.
Proof. repeat (constructor; [cbn; lia|]). constructor. Qed.

(** What a statement's text gives: itself, or the statements of an included file. *)
Lemma param_stmt_rest inc st g r l st' r' : param_stmt inc st g r = Ok (l, st', r') ->
  r' = r /\ ((List.length l <= 1)%nat \/ exists n, inc n st = Ok (l, st')).
Proof.
  unfold param_stmt. intros H.
  repeat match type of H with
  | (if ?b then _ else _) = _ => destruct b
  | (match fs_from_dict ?g with _ => _ end) = _ => destruct (fs_from_dict g)
  | bind ?x _ = _ => let E := fresh "E" in destruct x as [?|?] eqn:E; cbn [bind] in H; [|discriminate H]
  | (let '(_, _) := ?p in _) = _ => destruct p
  end; apply ok_inj in H; injection H as <- <- <-; (split; [reflexivity|]); try (left; cbn; lia).
  right. eexists. eassumption.
Qed.

Lemma parse_step_progress inc st line l st' r : parse_step inc st line = Some (Ok (l, st', r)) ->
  (List.length r < List.length line)%nat /\ ((List.length l <= 1)%nat \/ exists n, inc n st = Ok (l, st')).
Proof.
  unfold parse_step. destruct line as [|c rest]; [discriminate|]. set (line := c :: rest). intros H.
  assert (B : forall R g q, re_match R line = Some (g, q) -> (1 <= minlen R)%nat -> (List.length q < List.length line)%nat).
  { intros R g q E M. apply re_match_progress in E. lia. }
  assert (Fin : forall (l' : list stmt) s' r', Some (Ok (l', s', r')) = Some (Ok (l, st', r)) -> l' = l /\ s' = st' /\ r' = r).
  { intros l' s' r' E. injection E as -> -> ->. auto. }
  destruct (ceq c "*"%char).
  { apply Fin in H as (<- & <- & <-). split; [cbn; lia|left; cbn; lia]. }
  destruct (re_match COORD_STMT line) as [[g q]|] eqn:E.
  { apply B in E; [|cbn; lia]. destruct (coord_from_dict st g); cbn [bind] in H; [|discriminate].
    apply Fin in H as (<- & <- & <-). split; [exact E|left; cbn; lia]. }
  clear E. destruct (re_match APERTURE_STMT line) as [[g q]|] eqn:E.
  { apply B in E; [|cbn; lia]. destruct (py_int (dflt (group "d" g))); cbn [bind] in H; [|discriminate].
    apply Fin in H as (<- & <- & <-). split; [exact E|left; cbn; lia]. }
  clear E. destruct (match_one_from_many PARAM_STMT line) as [[g q]|] eqn:E.
  { apply many_progress in E; [|apply params_progress]. injection H as H. apply param_stmt_rest in H as [-> H]. auto. }
  clear E. destruct (re_match REGION_MODE_STMT line) as [[g q]|] eqn:E.
  { apply B in E; [|cbn; lia]. apply Fin in H as (<- & <- & <-). split; [exact E|left; cbn; lia]. }
  clear E. destruct (re_match QUAD_MODE_STMT line) as [[g q]|] eqn:E.
  { apply B in E; [|cbn; lia]. apply Fin in H as (<- & <- & <-). split; [exact E|left; cbn; lia]. }
  clear E. destruct (re_match COMMENT_STMT line) as [[g q]|] eqn:E.
  { apply B in E; [|cbn; lia]. apply Fin in H as (<- & <- & <-). split; [exact E|left; cbn; lia]. }
  clear E. destruct (re_match DEPRECATED_UNIT line) as [[g q]|] eqn:E.
  { apply B in E; [|cbn; lia]. apply Fin in H as (<- & <- & <-). split; [exact E|left; cbn; lia]. }
  clear E. destruct (re_match DEPRECATED_FORMAT line) as [[g q]|] eqn:E.
  { apply B in E; [|cbn; lia]. apply Fin in H as (<- & <- & <-). split; [exact E|left; cbn; lia]. }
  clear E. destruct (re_match EOF_STMT line) as [[g q]|] eqn:E.
  { apply B in E; [|cbn; lia]. apply Fin in H as (<- & <- & <-). split; [exact E|left; cbn; lia]. }
  clear E. destruct (char_in "*"%char rest); [|discriminate].
  apply Fin in H as (<- & <- & <-). split; [cbn; lia|left; cbn; lia].
Qed.

(** The bound on the iterations does not matter once it exceeds the length of the line. *)
Lemma parse_line_fuel inc : forall n m st line, (List.length line < n)%nat -> (List.length line < m)%nat ->
  parse_line n inc st line = parse_line m inc st line.
Proof.
  induction n as [|n IH]; intros m st line Hn Hm; [lia|]. destruct m as [|m]; [lia|]. cbn [parse_line].
  destruct (parse_step inc st line) as [[[[l st'] r]|e]|] eqn:E; [|reflexivity|reflexivity]. cbn [bind].
  apply parse_step_progress in E as [E _]. rewrite (IH m) by lia. reflexivity.
Qed.

Lemma parse_line_count inc : (forall n st l st', inc n st <> Ok (l, st')) ->
  forall n st line l st' r, parse_line n inc st line = Ok (l, st', r) ->
  (List.length l + List.length r <= List.length line)%nat.
Proof.
  intros NI. induction n as [|n IH]; intros st line l st' r H; [discriminate|]. cbn [parse_line] in H.
  destruct (parse_step inc st line) as [[[[l1 st1] r1]|e]|] eqn:E; [|discriminate|].
  - cbn [bind] in H. apply parse_step_progress in E as [E [L|[nm C]]]; [|now apply NI in C].
    destruct (parse_line n inc st1 r1) as [[[l2 st2] r2]|e] eqn:E2; [|discriminate]. cbn [bind] in H.
    apply ok_inj in H. injection H as <- <- <-. apply IH in E2. rewrite app_length. lia.
  - apply ok_inj in H. injection H as <- <- <-. cbn. lia.
Qed.

Lemma strip_length s : (List.length (strip s) <= List.length s)%nat.
Proof.
  assert (L : forall p t, (List.length (lstrip_p p t) <= List.length t)%nat).
  { intros p. induction t as [|c t IH]; cbn [lstrip_p]; [lia|]. destruct (p c); cbn [List.length]; lia. }
  unfold strip, strip_p, rstrip_p. rewrite rev_length. etransitivity; [apply L|]. rewrite rev_length. apply L.
Qed.

Lemma parse_cmds_count inc : (forall n st l st', inc n st <> Ok (l, st')) ->
  forall cmds st old l st', parse_cmds inc st old cmds = Ok (l, st') ->
  (List.length l <= List.length old + List.length (List.concat cmds))%nat.
Proof.
  intros NI. induction cmds as [|c cmds IH]; intros st old l st' H; cbn [parse_cmds] in H.
  - apply ok_inj in H. injection H as <- <-. cbn. lia.
  - pose proof (strip_length c) as SL. cbn [List.concat]. rewrite app_length.
    destruct (old ++ strip c) as [|x line] eqn:El.
    + apply app_eq_nil in El as [-> _]. apply IH in H. cbn [List.length] in *. lia.
    + assert (LL : (List.length (x :: line) <= List.length old + List.length c)%nat) by (rewrite <- El, app_length; lia).
      destruct (continues (x :: line)); [apply IH in H; lia|].
      destruct (parse_line _ inc st (x :: line)) as [[[l1 st1] o1]|e] eqn:E; [|discriminate]. cbn [bind] in H.
      apply (parse_line_count inc NI) in E. destruct (parse_cmds inc st1 o1 cmds) as [[l2 st2]|e] eqn:E2; [|discriminate].
      cbn [bind] in H. apply ok_inj in H. injection H as <- <-. apply IH in E2. rewrite app_length. lia.
Qed.

Lemma split_concat_length data : (List.length (List.concat (split_commands data)) <= List.length data)%nat.
Proof.
  unfold split_commands.
  assert (G : forall data cur hdr, (List.length (List.concat (fst (split_loop cur hdr data))) <= List.length cur + List.length data)%nat).
  { clear. induction data as [|c data IH]; intros cur hdr; [cbn; lia|]. cbn [split_loop].
    destruct (ceq c "%"%char && match cur with [] => true | _ => false end).
    { etransitivity; [apply IH|]. rewrite app_length. cbn. lia. }
    destruct (is_nl c).
    { specialize (IH [] hdr). destruct (split_loop [] hdr data) as [ys t]. cbn [fst] in *. destruct cur; cbn [List.concat];
      rewrite ?app_length; cbn [List.length] in *; lia. }
    destruct (negb hdr && ceq c "*"%char).
    { specialize (IH [] hdr). destruct (split_loop [] hdr data) as [ys t]. cbn [fst List.concat] in *. rewrite !app_length. cbn [List.length] in *. lia. }
    destruct (hdr && ceq c "%"%char).
    { specialize (IH [] false). destruct (split_loop [] false data) as [ys t]. cbn [fst List.concat] in *. rewrite !app_length. cbn [List.length] in *. lia. }
    etransitivity; [apply IH|]. rewrite app_length. cbn. lia. }
  apply (G data [] true).
Qed.

Lemma parse_line_runs inc : forall n st line, (List.length line < n)%nat -> runs inc st line (parse_line n inc st line).
Proof.
  induction n as [|n IH]; intros st line H; [lia|]. cbn [parse_line].
  destruct (parse_step inc st line) as [[[[l st'] r]|e]|] eqn:E; [|now constructor 2|now constructor 1]. cbn [bind].
  pose proof (parse_step_progress _ _ _ _ _ _ E) as [P _]. specialize (IH st' r ltac:(lia)).
  destruct (parse_line n inc st' r) as [[[l2 st2] r2]|e] eqn:E2; cbn [bind].
  - now apply (R_go inc st line l st' r).
  - now apply (R_go_error inc st line l st' r).
Qed.

Lemma parse_text_count data l st : parse_text no_files data = Ok (l, st) -> (List.length l <= List.length data)%nat.
Proof.
  unfold parse_text. rewrite parse_data_eq. intros H. apply parse_cmds_count in H; [|].
  - cbn [List.length plus] in H. etransitivity; [exact H|]. apply split_concat_length.
  - intros n s l' s'. cbn. discriminate.
Qed.

Lemma includes_forever_err fs F : includes_forever fs F -> forall d n st t, F n -> fs n = Ok t -> parse_data d fs st t = Err IOError.
Proof.
  intros HF. induction d as [|d IH]; intros n st t Hn Et; destruct (HF n Hn) as (st0 & l & pre & n' & r & Hs & W & Fb & Ew & Nm & F' & E);
  rewrite E in Et; apply ok_inj in Et; subst t; rewrite parse_data_eq; unfold split_commands;
  apply (include_fails_file st0 Hs l); auto; try (now right).
  intros st''. cbn beta. destruct (HF n' F') as (? & ? & ? & ? & ? & _ & _ & _ & _ & _ & _ & E'). rewrite E'. cbn [bind].
  eapply IH; eassumption.
Qed.

Lemma parse_text_depicts fs st t l : announceable st -> depicts fs st include_limit t l -> format_before_coords l ->
  parse_text fs t = Ok (l, after_all pset0 l).
Proof. intros. now apply (depicts_read fs st). Qed.

Lemma file_roundtrip st l : announceable st -> Forall (line_writable st) l -> format_before_coords l ->
  exists t, write_file st l = Ok t /\ forall fs, parse_text fs t = Ok (l, fold_left after l pset0).
Proof.
  intros Hs W F. destruct (write_depicts no_files st Hs l W) as (t & E & _). exists t. split; [exact E|]. intros fs.
  destruct (write_depicts fs st Hs l W) as (t' & E' & D). rewrite E in E'. apply ok_inj in E'. subst t'.
  now apply (parse_text_depicts fs st).
Qed.

Lemma statement_roundtrip st s : announceable st -> writable st s ->
  exists t, to_gerber st s = Ok t /\
    forall inc rest, parse_step inc st (t ++ rest) = Some (Ok ([s], after st s, rest)).
Proof.
  intros Hs W. destruct (step_writable (fun _ _ => Err IOError) st st s Hs W) as (t & E & _ & _); [left; split; reflexivity|].
  exists t. split; [exact E|]. intros inc rest.
  destruct (step_writable inc st st s Hs W) as (t' & E' & P & _); [left; split; reflexivity|].
  rewrite E in E'. apply ok_inj in E'. now subst.
Qed.

Lemma coordinate_roundtrip st fn x y i j op : announceable st -> writable st (SCoord fn x y i j op) ->
  exists t, to_gerber st (SCoord fn x y i j op) = Ok t /\
    forall inc rest, parse_step inc st (t ++ rest) = Some (Ok ([SCoord fn x y i j op], st, rest)).
Proof. intros Hs W. exact (statement_roundtrip st _ Hs W). Qed.


(** ** Aperture dimensions with more than four digits *)

Lemma reads4_close v : 0 < v -> exists w, reads4 v w /\ qabs (v - w) <= v * Q2Qc (1 # 2000).
Proof.
  intros H. exists (round_sig_signed 4 v). split; [apply py_float_fmt_g; lia|].
  assert (E : round_sig_signed 4 v = round_sig 4 v).
  { unfold round_sig_signed. destruct (qceq_spec v 0) as [->|_]; [discriminate H|]. destruct (qclt_spec v 0) as [L|_]; [|reflexivity].
    exfalso. exact (Qclt_not_le _ _ H (Qclt_le_weak _ _ L)). }
  rewrite E. eapply Qcle_trans; [apply round_sig_relative; [lia|exact H]|].
  rewrite Qcmult_comm. replace (Q2Qc (1 # 2) * dec 1 (4 - 1)) with (Q2Qc (1 # 2000)); [apply Qcle_refl|].
  apply Qc_is_canon. reflexivity.
Qed.

Lemma reads4_list l : Forall (fun v => 0 < v) l ->
  exists l', Forall2 reads4 l l' /\ Forall2 (fun v w => qabs (v - w) <= v * Q2Qc (1 # 2000)) l l'.
Proof.
  induction 1 as [|v l Hv Hl (l' & A & B)]; [exists []; split; constructor|].
  destruct (reads4_close v Hv) as (w & Hw & Hc). exists (w :: l'). split; constructor; auto.
Qed.

Lemma dimension_roundtrip st d shape l : (0 <= d)%Z -> In shape [T "C"; T "R"; T "O"; T "P"] -> l <> [] ->
  Forall (fun v => 0 < v) l ->
  exists t l', to_gerber st (SAD d shape [l]) = Ok t /\
    Forall2 (fun v w => qabs (v - w) <= v * Q2Qc (1 # 2000)) l l' /\
    forall inc st' rest, parse_step inc st' (t ++ rest) = Some (Ok ([SAD d shape [l']], st', rest)).
Proof.
  intros Hd Hs N F. destruct (reads4_list l F) as (l' & R & C). destruct (ad_text st d shape l []) as (t & E & _).
  exists t, l'. split; [exact E|]. split; [exact C|]. intros inc st' rest.
  destruct Hs as [<-|Hs].
  - destruct (step_define_circle_gen inc st st' d l l' rest Hd R) as (t' & E' & P). rewrite E in E'. apply ok_inj in E'. now subst.
  - destruct (step_define_other_gen inc st st' d shape l l' rest Hd Hs N R) as (t' & E' & P). rewrite E in E'. apply ok_inj in E'. now subst.
Qed.
