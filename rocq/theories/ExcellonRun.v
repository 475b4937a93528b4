From Verif Require Import PyBase QcLib NumModel NumSpec NumProofs FmtModel FmtProofs Regex GerberText GerberTextProofs MacroProofs
  ExcellonModel ExcellonFile ExcellonSpec ExcellonProofs.
Open Scope list_scope.
Open Scope Qc_scope.

(** ** Looking up tools *)
Definition lookup (st : xst) (n : Z) : option tloc :=
  match dget n (x_tools st) with
  | Some l => Some l
  | None => match dget n (x_ctools st) with Some l => Some l | None => dget n (x_ext st) end
  end.
Definition default_diam (u : unit_) (n : Z) : Qc :=
  let q := zq (16 + 8 * n) / zq 1000 in match u with Inch => q | Metric => metric q end.
Definition dv (st : xst) (n : Z) : option Qc :=
  match lookup st n with
  | Some l => match tget (x_store st) l with Some t => t_diam t | None => None end
  | None => Some (default_diam (x_units st) n)
  end.
Lemma lookup_some st n l : wf st -> lookup st n = Some l -> exists t, tget (x_store st) l = Some t /\ t_num t = n.
Proof.
  intros W. unfold lookup. destruct (dget n (x_tools st)) as [k|] eqn:E.
  { intros [= <-]. apply dget_in in E. exact (proj2 (wf_tools _ W) n k E). }
  destruct (dget n (x_ctools st)) as [k|] eqn:E1.
  { intros [= <-]. apply dget_in in E1. exact (proj2 (wf_ctools _ W) n k E1). }
  intros E2. apply dget_in in E2. exact (proj2 (wf_ext _ W) n l E2).
Qed.

(** States that differ in nothing but the store and the tables. *)
Definition same_rest (a b : xst) : Prop :=
  x_units a = x_units b /\ x_zeros a = x_zeros b /\ x_notation a = x_notation b /\ x_format a = x_format b /\ x_state a = x_state b /\
  x_hits a = x_hits b /\ x_active a = x_active b /\ x_pos a = x_pos b /\ x_down a = x_down b /\ x_prev a = x_prev b.

Lemma settings_fmt st i d : x_format st = [Z.of_nat i; Z.of_nat d] -> settings_of st = Ok (mkXset (x_units st) (i, d) (x_zeros st) (x_notation st)).
Proof.
  intros E. unfold settings_of. rewrite E. replace (Z.of_nat i <? 0)%Z with false by (symmetry; apply Z.ltb_ge; lia).
  replace (Z.of_nat d <? 0)%Z with false by (symmetry; apply Z.ltb_ge; lia). cbn [orb]. rewrite !Nat2Z.id. reflexivity.
Qed.

Lemma get_tool_found st n l i d : x_format st = [Z.of_nat i; Z.of_nat d] -> lookup st n = Some l ->
  exists st', get_tool n st = Ok (Some l, st') /\ same_rest st st' /\ x_stmts st' = x_stmts st /\ dget n (x_tools st') = Some l /\
    (forall k, lookup st' k = lookup st k) /\ (forall k, dv st' k = dv st k) /\ (forall k j, dget k (x_tools st) = Some j -> dget k (x_tools st') = Some j).
Proof.
  intros F L. unfold get_tool. unfold lookup in L. destruct (dget n (x_tools st)) as [k|] eqn:E.
  { injection L as <-. exists st. repeat split; auto. }
  assert (A : exists st', adopt n l st = Ok st' /\ same_rest st st' /\ x_stmts st' = x_stmts st /\ dget n (x_tools st') = Some l /\
    (forall k, lookup st' k = lookup st k) /\ (forall k, dv st' k = dv st k) /\ (forall k j, dget k (x_tools st) = Some j -> dget k (x_tools st') = Some j)).
  { unfold adopt. rewrite (settings_fmt st i d F). cbn [bind]. eexists. split; [reflexivity|].
    split; [repeat split|]. split; [reflexivity|]. split; [cbn; apply dget_dput_same|].
    assert (LK : forall k, lookup (with_tools (tset (x_store st) l (with_settings (mkXset (x_units st) (i, d) (x_zeros st) (x_notation st)))) (dput n l (x_tools st)) st) k = lookup st k).
    { intros k. unfold lookup. cbn. destruct (Z.eq_dec n k) as [->|NE]; [rewrite dget_dput_same, E; congruence|].
      rewrite dget_dput_other by exact NE. reflexivity. }
    split; [exact LK|]. split.
    - intros k. unfold dv. rewrite LK. destruct (lookup st k) as [j|] eqn:Ej; [|reflexivity]. cbn. destruct (Nat.eq_dec l j) as [->|NE].
      + destruct (tget (x_store st) j) as [t|] eqn:Et; [now rewrite (tget_tset_same _ _ _ t Et)|].
        destruct (tget (tset _ _ _) j) eqn:X; [|reflexivity]. exfalso. assert (X' : tget (tset (x_store st) j (with_settings (mkXset (x_units st) (i, d) (x_zeros st) (x_notation st)))) j <> None) by congruence.
        apply nth_error_Some in X'. rewrite tset_length in X'. apply nth_error_None in Et. lia.
      + now rewrite tget_tset_other.
    - intros k j D. cbn. rewrite dget_dput_other; [exact D|]. intros ->. congruence. }
  destruct A as (st' & A & R). exists st'. split; [|exact R].
  destruct (dget n (x_ctools st)) as [k|] eqn:E1; [injection L as ->; now rewrite A|]. rewrite L. now rewrite A.
Qed.
Lemma get_tool_missing st n : lookup st n = None -> get_tool n st = Ok (None, st).
Proof.
  unfold lookup, get_tool. destruct (dget n (x_tools st)); [discriminate|]. destruct (dget n (x_ctools st)); [discriminate|]. now intros ->.
Qed.

(** ** The simulation *)
Section Run.
Variable holesize : unit_ -> text -> res (option tool).
Variables (i d : nat) (z : zkind) (u : unit_) (D : Z -> option Qc) (one : bool).
(** The mode and whether the tool is lowered; nothing of what follows changes them. *)
Variables (ps : pstate) (dn : bool).
Hypothesis Hr : readable i d.
Hypothesis Hps : ps <> SHeader.

Record sim (st : xst) (cur : option Z) (inc : bool) (p : point) : Prop := mkSim {
  s_prev : x_prev st = [];
  s_state : x_state st = ps;
  s_down : x_down st = dn;
  s_fmt : x_format st = [Z.of_nat i; Z.of_nat d];
  s_zeros : x_zeros st = z;
  s_units : x_units st = u;
  s_not : x_notation st = if inc then Incremental else Absolute;
  s_pos : x_pos st = p;
  s_wf : wf st;
  s_cur : match cur with None => x_active st = None | Some n => exists l, x_active st = Some l /\ dget n (x_tools st) = Some l end;
  s_dv : forall n, dv st n = D n;
  s_one : one = true -> lookup st 1 <> None }.

Definition view_ok (s : list tool) (h : hit) (e : Z * point) : Prop := hole_view s h = Some (fst e, D (fst e), snd e).

Lemma view_grows s s' h v : grows s s' -> hole_view s h = Some v -> hole_view s' h = Some v.
Proof.
  intros G. unfold hole_view. destruct h as [[l|] p|[l|] p q r]; cbn [tool_of]; try discriminate.
  destruct (nth_error s l) as [t|] eqn:E; [|discriminate]. destruct (G l t E) as (t' & E' & En & Ed). unfold tget in E'. rewrite E', En, Ed. auto.
Qed.

Lemma sim_settings st cur inc p : sim st cur inc p -> exists se, settings_of st = Ok se /\ xs_format se = (i, d) /\ xs_zeros se = z /\ xs_units se = u.
Proof. intros S. rewrite (settings_fmt st i d (s_fmt _ _ _ _ S)). eexists. split; [reflexivity|]. cbn. repeat split; apply S. Qed.

(** Adding a hit for the active tool. *)
Lemma sim_hit st n inc p p' h : sim st (Some n) inc p -> (exists l, x_active st = Some l /\ h = Hit (Some l) p') ->
  exists st', add_hit h st = Ok st' /\ sim st' (Some n) inc p /\ x_hits st' = x_hits st ++ [h] /\ view_ok (x_store st') h (n, p') /\ x_active st' = x_active st.
Proof.
  intros S (l & A & ->). destruct (s_cur _ _ _ _ S) as (l' & A' & T). assert (l' = l) by congruence. subst l'.
  unfold add_hit. rewrite A. eexists. split; [reflexivity|].
  assert (G : grows (x_store st) (tset (x_store st) l count_hit)) by (apply grows_tset; intros t; destruct t; auto).
  assert (LK : lookup st n = Some l) by (unfold lookup; now rewrite T).
  destruct (lookup_some st n l (s_wf _ _ _ _ S) LK) as (t & Et & En).
  assert (E : ev holesize false st (with_hits (tset (x_store st) l count_hit) (x_hits st ++ [Hit (Some l) p']) st)) by (apply ev_hit; auto).
  split; [|split; [reflexivity|split]].
  - pose proof (ev_wf _ _ _ _ E (s_wf _ _ _ _ S)) as W. destruct S. constructor; cbn; auto.
    intros k. rewrite <- s_dv0. unfold dv, lookup. cbn. fold (lookup st k). destruct (lookup st k) as [j|] eqn:Ej; [|reflexivity].
    destruct (lookup_some st k j s_wf0 Ej) as (tj & Etj & _). destruct (G j tj Etj) as (t' & -> & _ & ->). now rewrite Etj.
  - unfold view_ok, hole_view. cbn. destruct (G l t Et) as (t' & Et' & En' & Ed'). unfold tget in Et'. rewrite Et', En', Ed', En.
    rewrite <- (s_dv _ _ _ _ S n). unfold dv. rewrite LK, Et. reflexivity.
  - cbn. congruence.
Qed.

(** Any change to the other fields. *)
Lemma sim_same st st' cur inc p cur' (inc' : bool) p' : sim st cur inc p -> same_core st st' -> x_units st' = x_units st -> x_prev st' = [] -> x_state st' = ps ->
  x_format st' = x_format st -> x_zeros st' = x_zeros st -> x_notation st' = (if inc' then Incremental else Absolute) -> x_pos st' = p' -> cur' = cur -> x_down st' = dn ->
  sim st' cur' inc' p'.
Proof.
  intros S C. intros. subst cur'. assert (E : ev holesize false st st') by (now apply ev_same). destruct C as (C1 & C2 & C3 & C4 & C5 & C6).
  assert (LK : forall k, lookup st' k = lookup st k) by (intros k; unfold lookup; now rewrite <- C2, <- C3, <- C4).
  destruct S. constructor; auto; try congruence.
  - eapply ev_wf; eassumption.
  - destruct cur; [|congruence]. rewrite <- C5, <- C2. assumption.
  - intros k. rewrite <- s_dv0. unfold dv. rewrite LK, <- C1. destruct (lookup st k); congruence.
  - rewrite LK. assumption.
Qed.

Lemma sim_ensure st cur inc p : sim st cur inc p -> (cur = None -> one = true) ->
  exists st' l, ensure_tool st = Ok st' /\ x_active st' = Some l /\ sim st' (Some match cur with Some n => n | None => 1%Z end) inc p /\ x_hits st' = x_hits st /\ grows (x_store st) (x_store st').
Proof.
  intros S H. unfold ensure_tool. destruct cur as [n|].
  - destruct (s_cur _ _ _ _ S) as (l & A & T). rewrite A. exists st, l. split; [reflexivity|]. split; [exact A|]. split; [exact S|]. split; [reflexivity|apply grows_refl].
  - pose proof (s_cur _ _ _ _ S) as A. cbn in A. rewrite A. specialize (H eq_refl). pose proof (s_one _ _ _ _ S H) as O.
    destruct (lookup st 1) as [l|] eqn:L; [|contradiction].
    destruct (get_tool_found st 1 l i d (s_fmt _ _ _ _ S) L) as (st' & G & R & _ & T & LK & DV & _). rewrite G. cbn [bind fst snd].
    exists (with_active (Some l) st'), l. split; [reflexivity|]. split; [reflexivity|].
    destruct (get_tool_ev holesize false _ _ _ _ G) as [E _].
    assert (W : wf st') by (eapply ev_wf; [exact E|apply S]).
    destruct R as (R1 & R2 & R3 & R4 & R5 & R6 & R7 & R8 & R9 & R10).
    split; [|split; [cbn; congruence|exact (ev_grows _ _ _ _ E)]].
    destruct S. constructor; cbn; try congruence.
    + eapply ev_wf; [apply (ev_select holesize false 1 l); exact T|exact W].
    + eauto.
    + intros k. rewrite <- s_dv0. exact (DV k).
    + intros _. change (lookup st' 1 <> None). rewrite LK. congruence.
Qed.

Definition run1 (x : instr) (c : option Z * bool * point) : option Z * bool * point :=
  let '(cur, inc, p) := c in
  match x with
  | Use n => (if (n =? 0)%Z then cur else Some n, inc, p)
  | Abs => (cur, false, p)
  | Inc => (cur, true, p)
  | At a b => (Some (match cur with Some n => n | None => 1%Z end), inc, if inc then shift p a b else put p a b)
  | Rep k dx dy => (cur, inc, along p (val dx) (val dy) k)
  end.
Definition made1 (x : instr) (c : option Z * bool * point) : list (Z * point) :=
  let '(cur, inc, p) := c in
  match x with
  | At a b => [(match cur with Some n => n | None => 1%Z end, if inc then shift p a b else put p a b)]
  | Rep k dx dy => map (fun j => (match cur with Some n => n | None => 1%Z end, along p (val dx) (val dy) j)) (seq 1 k)
  | _ => []
  end.
Lemma holes_cons x l cur inc p : holes cur inc p (x :: l) =
  made1 x (cur, inc, p) ++ (let '(cur', inc', p') := run1 x (cur, inc, p) in holes cur' inc' p' l).
Proof. destruct x; reflexivity. Qed.

Lemma go_plus (inc : bool) p x y : go (if inc then Incremental else Absolute) p x y = if inc then shift p x y else put p x y.
Proof. destruct inc; reflexivity. Qed.

Lemma along_S p dx dy k : (fst (along p dx dy k) + dx, snd (along p dx dy k) + dy) = along p dx dy (S k).
Proof.
  unfold along. cbn [fst snd]. rewrite Nat2Z.inj_succ, <- Z.add_1_r.
  change (Q2Qc (inject_Z (Z.of_nat k + 1))) with (zq (Z.of_nat k + 1)). change (Q2Qc (inject_Z (Z.of_nat k))) with (zq (Z.of_nat k)).
  rewrite zq_plus, zq_1. f_equal; ring.
Qed.
Lemma along_0 p dx dy : along p dx dy 0 = p.
Proof. unfold along. destruct p. cbn. f_equal; change (Q2Qc (inject_Z 0)) with 0%Qc; ring. Qed.

Lemma sim_repeat k : forall j st n inc p dx dy, sim st (Some n) inc (along p dx dy j) ->
  exists st' new, repeat_hits k dx dy st = Ok st' /\ sim st' (Some n) inc (along p dx dy (j + k)) /\ x_hits st' = x_hits st ++ new /\
    Forall2 (view_ok (x_store st')) new (map (fun q => (n, along p dx dy q)) (seq (S j) k)) /\ grows (x_store st) (x_store st').
Proof.
  induction k as [|k IH]; intros j st n inc p dx dy S.
  - exists st, []. rewrite Nat.add_0_r, app_nil_r. cbn. split; [reflexivity|]. split; [exact S|]. split; [reflexivity|]. split; [constructor|apply grows_refl].
  - cbn [repeat_hits]. set (st1 := with_pos _ st). assert (P1 : x_pos st1 = along p dx dy (Datatypes.S j)).
    { unfold st1. cbn [x_pos with_pos]. rewrite (s_pos _ _ _ _ S). apply along_S. }
    assert (S1 : sim st1 (Some n) inc (along p dx dy (Datatypes.S j))).
    { eapply (sim_same st); [exact S|repeat split|reflexivity| | |reflexivity|reflexivity| |exact P1|reflexivity|]; apply S. }
    destruct (s_cur _ _ _ _ S1) as (l & A & T). rewrite A, P1.
    destruct (sim_hit st1 n inc _ (along p dx dy (Datatypes.S j)) (Hit (Some l) (along p dx dy (Datatypes.S j))) S1) as (st2 & E2 & S2 & H2 & V2 & _); [eauto|].
    rewrite E2. cbn [bind]. destruct (IH (Datatypes.S j) st2 n inc p dx dy S2) as (st3 & new & E3 & S3 & H3 & V3 & G3).
    exists st3, (Hit (Some l) (along p dx dy (Datatypes.S j)) :: new). split; [exact E3|]. split; [now rewrite <- Nat.add_succ_comm|].
    split; [rewrite H3, H2, <- app_assoc; reflexivity|]. split.
    + cbn [seq map]. constructor; [|exact V3]. unfold view_ok in *. eapply view_grows; eassumption.
    + eapply grows_trans; [|exact G3]. change (x_store st) with (x_store st1).
      eapply ev_grows with (holesize := holesize) (f := false). eapply add_hit_ev; [exact E2|]. symmetry. exact A.
Qed.

Lemma nums_letters (s t : text) c : nums s -> num_char c = false -> In c (s ++ t) -> In c t.
Proof. intros N E I. apply in_app_or in I as [I|I]; [|exact I]. exfalso. exact (nums_not_in _ _ N E I). Qed.
Lemma field_chars l t v c : field_reads i d z l t v -> num_char c = false -> ~ In c (T l) -> ~ In c t.
Proof.
  intros [|t' q R] E N I; [exact I|]. apply in_app_or in I as [I|I]; [contradiction|].
  exact (nums_not_in _ _ (proj1 (reads_nums _ _ _ _ _ R)) E I).
Qed.

Lemma sim_step st cur inc p x line rest : sim st cur inc p -> says i d z x line -> tool_known one (match cur with Some n => Use 1 :: x :: rest | None => x :: rest end) ->
  match x with At _ _ => ps = SDrill | _ => True end ->
  exists st' new, parse_line holesize st line = Ok st' /\ (let '(cur', inc', p') := run1 x (cur, inc, p) in sim st' cur' inc' p') /\
    x_hits st' = x_hits st ++ new /\ Forall2 (view_ok (x_store st')) new (made1 x (cur, inc, p)).
Proof.
  intros S Sy K AD. pose proof (s_prev _ _ _ _ S) as P. destruct (sim_settings _ _ _ _ S) as (se & Es & Ef & Ez & Eu).
  assert (HD : is_header st = false) by (unfold is_header; rewrite (s_state _ _ _ _ S); destruct ps; congruence).
  assert (SEL : forall n ds c, digit_string ds -> read_sel ds = Ok (n, c) -> exists st' new,
     parse_line holesize st ("T"%char :: ds) = Ok st' /\ sim st' (if (n =? 0)%Z then cur else Some n) inc p /\ x_hits st' = x_hits st ++ new /\ Forall2 (view_ok (x_store st')) new []).
  { intros n ds c Dd RS. rewrite dispatch_t; [|exact P|apply nums_not_in; [now apply digits_nums|reflexivity]..].
    rewrite HD. unfold select_line. cbn [skipn]. rewrite RS. cbn [bind].
    assert (S1 : sim (add_stmt (ESel n c) st) cur inc p).
    { eapply (sim_same st); [exact S|repeat split|reflexivity| | |reflexivity|reflexivity| | |reflexivity|]; apply S. }
    destruct (n =? 0)%Z; [exists (add_stmt (ESel n c) st), []; rewrite app_nil_r; auto|].
    set (s1 := add_stmt (ESel n c) st) in *. destruct (lookup s1 n) as [l|] eqn:L.
    - destruct (get_tool_found s1 n l i d (s_fmt _ _ _ _ S1) L) as (s2 & G & R & _ & Tn & LK & DV & _). rewrite G. cbn [bind].
      exists (with_active (Some l) s2), []. split; [reflexivity|]. destruct (get_tool_ev holesize false _ _ _ _ G) as [E _].
      assert (W : wf s2) by (eapply ev_wf; [exact E|apply S1]).
      destruct R as (R1 & R2 & R3 & R4 & R5 & R6 & R7 & R8 & R9 & R10). rewrite app_nil_r. split; [|split; [cbn; rewrite <- R6; reflexivity|constructor]].
      destruct S1. constructor; cbn; try congruence.
      + eapply ev_wf; [apply (ev_select holesize false n l); exact Tn|exact W].
      + eauto.
      + intros k. rewrite <- s_dv0. exact (DV k).
      + intros O. change (lookup s2 1 <> None). rewrite LK. auto.
    - rewrite (get_tool_missing s1 n L). cbn [bind]. replace (settings_of s1) with (settings_of st) by reflexivity. rewrite Es. cbn [bind].
      eexists. exists []. split; [reflexivity|]. rewrite app_nil_r. split; [|split; [reflexivity|constructor]].
      set (t0 := plain_tool _ _ _). set (st' := with_active _ _).
      assert (E : ev holesize false s1 st').
      { eapply ev_trans; [apply (ev_define holesize false t0 s1); reflexivity|]. cbn [t_num plain_tool t0].
        match goal with |- ev _ _ ?a _ => apply ev_trans with (with_active (Some (List.length (x_store s1))) a) end; [|apply ev_same; repeat split].
        apply (ev_select _ _ n). cbn. apply dget_dput_same. }
      assert (LK : forall k, k <> n -> lookup st' k = lookup s1 k).
      { intros k Hk. unfold lookup, st'. cbn. rewrite dget_dput_other by congruence. reflexivity. }
      assert (LN : lookup st' n = Some (List.length (x_store s1))) by (unfold lookup, st'; cbn; now rewrite dget_dput_same).
      pose proof (ev_wf _ _ _ _ E (s_wf _ _ _ _ S1)) as W'. destruct S1. constructor; cbn; auto.
      + eexists. split; [reflexivity|]. apply dget_dput_same.
      + intros k. rewrite <- s_dv0. destruct (Z.eq_dec k n) as [->|NE].
        * unfold dv. rewrite LN, L. unfold st'. cbn. change (x_store st) with (x_store s1). rewrite tget_app_new. cbn. rewrite Eu. f_equal.
          change (x_units st) with (x_units s1). rewrite s_units0. unfold default_diam. destruct u; reflexivity.
        * unfold dv. rewrite LK by exact NE. destruct (lookup s1 k) as [j|] eqn:Ej; [|reflexivity].
          destruct (lookup_some s1 k j s_wf0 Ej) as (tj & Etj & _). unfold st'. cbn. change (x_store st) with (x_store s1).
          rewrite tget_app_old by congruence. reflexivity.
      + intros O. destruct (Z.eq_dec 1 n) as [<-|NE]; [rewrite LN; discriminate|]. rewrite LK by exact NE. auto. }
  destruct Sy as [n ds Dd Nd Ld En|n ds cs Dd Ld En Dc Lc| | | |a b tx ty Fx Fy N|k ds a b tx ty Dd Nd En Fx Fy].
  - cbn [T list_ascii_of_string app run1 made1]. apply (SEL n ds None); auto. subst n. now apply read_sel_short.
  - cbn [T list_ascii_of_string app run1 made1]. apply (SEL n (ds ++ cs) (Some (int_of cs))); [apply Forall_app; auto|]. subst n. now apply read_sel_long.
  - rewrite dispatch_g90 by exact P. eexists. exists []. split; [reflexivity|]. rewrite app_nil_r. cbn [run1 made1]. split; [|split; [reflexivity|constructor]].
    eapply (sim_same st); [exact S|repeat split|reflexivity| | |reflexivity|reflexivity|reflexivity| |reflexivity|]; apply S.
  - rewrite dispatch_off by exact P. eexists. exists []. split; [reflexivity|]. rewrite app_nil_r. cbn [run1 made1]. split; [|split; [reflexivity|constructor]].
    eapply (sim_same st); [exact S|repeat split|reflexivity| | |reflexivity|reflexivity|reflexivity| |reflexivity|]; apply S.
  - rewrite dispatch_on by exact P. eexists. exists []. split; [reflexivity|]. rewrite app_nil_r. cbn [run1 made1]. split; [|split; [reflexivity|constructor]].
    eapply (sim_same st); [exact S|repeat split|reflexivity| | |reflexivity|reflexivity|reflexivity| |reflexivity|]; apply S.
  - assert (RX : read_xy se (tx ++ ty) = Ok (a, b)) by (apply (read_xy_says i d z); auto).
    assert (HC : exists c r, tx ++ ty = c :: r /\ (c = "X"%char \/ c = "Y"%char) /\ ~ In "I"%char r /\ ~ In "M"%char r /\ ~ In "G"%char r).
    { assert (C : forall c, num_char c = false -> ~ In c (T "X") -> ~ In c (T "Y") -> ~ In c (tx ++ ty)).
      { intros c H1 H2 H3 I. apply in_app_or in I as [I|I]; [exact (field_chars _ _ _ c Fx H1 H2 I)|exact (field_chars _ _ _ c Fy H1 H3 I)]. }
      pose proof (C "I"%char eq_refl ltac:(cbn; intuition discriminate) ltac:(cbn; intuition discriminate)) as C1.
      pose proof (C "M"%char eq_refl ltac:(cbn; intuition discriminate) ltac:(cbn; intuition discriminate)) as C2.
      pose proof (C "G"%char eq_refl ltac:(cbn; intuition discriminate) ltac:(cbn; intuition discriminate)) as C3.
      assert (X : exists c r, tx ++ ty = c :: r /\ (c = "X"%char \/ c = "Y"%char)).
      { destruct Fx as [|tx x Rx]; [destruct Fy as [|ty y Ry]; [destruct N; contradiction|]|]; cbn; eauto. }
      destruct X as (c & r & E & Hc). exists c, r. rewrite E in *. split; [reflexivity|]. split; [exact Hc|].
      repeat split; intros I; [apply C1|apply C2|apply C3]; now right. }
    destruct HC as (c & r & E & Hc & NI & NM & NG). rewrite E in *. rewrite dispatch_xy by auto.
    unfold coord_line. rewrite Es. cbn [bind]. rewrite RX. cbn [bind fst snd]. cbn [run1 made1].
    set (s1 := move_to a b _). set (p' := if inc then shift p a b else put p a b).
    assert (S1 : sim s1 cur inc p').
    { eapply (sim_same st); [exact S|repeat split|reflexivity| | |reflexivity|reflexivity| | |reflexivity|]; try apply S.
      unfold s1, move_to. cbn [x_pos with_pos x_notation add_stmt]. rewrite (s_not _ _ _ _ S), (s_pos _ _ _ _ S). apply go_plus. }
    rewrite (s_state _ _ _ _ S1), AD.
    destruct (sim_ensure s1 cur inc p' S1) as (s2 & l & E2 & A2 & S2 & H2 & G2).
    { intros ->. exact K. }
    rewrite E2. cbn [bind]. rewrite A2, (s_pos _ _ _ _ S2).
    destruct (sim_hit s2 _ inc p' p' (Hit (Some l) p') S2) as (s3 & E3 & S3 & H3 & V3 & _); [eauto|].
    exists s3, [Hit (Some l) p']. split; [exact E3|]. split; [exact S3|]. split; [rewrite H3, H2; reflexivity|]. constructor; [exact V3|constructor].
  - assert (RR : read_repeat se (T "R" ++ ds ++ tx ++ ty) = Ok (Z.of_nat k, a, b)) by (apply (read_repeat_says i d z); auto).
    destruct cur as [n|]; [|cbn in K; contradiction].
    assert (C : forall c, num_char c = false -> ~ In c (T "X") -> ~ In c (T "Y") -> ~ In c (ds ++ tx ++ ty)).
    { intros c H1 H2 H3 I. apply nums_letters in I; [|now apply digits_nums|exact H1]. apply in_app_or in I as [I|I]; [exact (field_chars _ _ _ c Fx H1 H2 I)|exact (field_chars _ _ _ c Fy H1 H3 I)]. }
    cbn [T list_ascii_of_string app]. rewrite dispatch_r; [|exact P|exact HD|apply C; cbn; intuition discriminate..].
    rewrite Es. cbn [bind]. cbn [T list_ascii_of_string app] in RR. rewrite RR. cbn [bind run1 made1]. rewrite Nat2Z.id.
    assert (S1 : sim (add_stmt (ERepeat (Z.of_nat k) a b) st) (Some n) inc (along p (val a) (val b) 0)).
    { eapply (sim_same st); [exact S|repeat split|reflexivity| | |reflexivity|reflexivity| | |reflexivity|]; try apply S. rewrite along_0. apply S. }
    destruct (sim_repeat k 0 _ n inc p (val a) (val b) S1) as (s2 & new & E2 & S2 & H2 & V2 & _).
    exists s2, new. split; [exact E2|]. split; [exact S2|]. split; [exact H2|exact V2].
Qed.

Lemma sim_run prog : forall lines st cur inc p, sim st cur inc p -> Forall2 (says i d z) prog lines ->
  tool_known one (match cur with Some n => Use 1 :: prog | None => prog end) -> ps = SDrill ->
  exists st' new c', parse_lines holesize st lines = Ok st' /\ (let '(cur', inc', p') := c' in sim st' cur' inc' p') /\
    x_hits st' = x_hits st ++ new /\ Forall2 (view_ok (x_store st')) new (holes cur inc p prog).
Proof.
  induction prog as [|x prog IH]; intros lines st cur inc p S F K PD.
  - inversion F; subst. exists st, [], (cur, inc, p). rewrite app_nil_r. split; [reflexivity|]. split; [exact S|]. split; [reflexivity|constructor].
  - inversion F as [|? line ? lines' Sx F']; subst. cbn [parse_lines].
    destruct (sim_step st cur inc p x line prog S Sx) as (s1 & n1 & E1 & S1 & H1 & V1).
    { exact K. }
    { now destruct x. }
    rewrite holes_cons. destruct (run1 x (cur, inc, p)) as [[cur' inc'] p'] eqn:R. rewrite E1. cbn [bind].
    destruct (IH lines' s1 cur' inc' p' S1 F') as (s2 & n2 & c2 & E2 & S2 & H2 & V2).
    { destruct cur as [n|].
      - assert (cur' <> None) as NN by (destruct x; cbn in R; injection R as <- _ _; try discriminate; destruct (n0 =? 0)%Z; discriminate).
        destruct cur'; [left; discriminate|contradiction].
      - destruct x as [n| | |a b|k dx dy]; cbn in R, K; injection R as <- _ _.
        + destruct (Z.eqb_spec n 0) as [->|NE]; [destruct K as [K|K]; [contradiction|exact K]|left; discriminate].
        + exact K.
        + exact K.
        + left; discriminate.
        + contradiction. }
    { exact PD. }
    exists s2, (n1 ++ n2), c2. split; [exact E2|]. split; [exact S2|]. split; [rewrite H2, H1, app_assoc; reflexivity|].
    apply Forall2_app; [|exact V2]. destruct (parse_lines_wf holesize _ _ _ E2 (s_wf _ _ _ _ S1)) as [_ G].
    clear - V1 G. induction V1 as [|h e hs es V _ IHV]; constructor; [|exact IHV]. unfold view_ok in *. eapply view_grows; eassumption.
Qed.
End Run.

(** ** Lines of a text *)
Definition nospace (l : text) : Prop := Forall (fun c => is_space c = false) l.
Lemma nospace_nl l : nospace l -> ~ In nl l.
Proof. intros F I. unfold nospace in F. rewrite Forall_forall in F. specialize (F nl I). discriminate. Qed.
Lemma strip_eol l eol : nospace l -> line_end eol -> strip (removelast (l ++ eol)) = l.
Proof.
  intros F E. assert (L : forall (s : text) c, removelast (s ++ [c]) = s) by (intros s c; apply removelast_last).
  destruct E as [->| ->].
  - rewrite L. now apply strip_nospace.
  - change (l ++ [cr; nl]) with (l ++ [cr] ++ [nl]). rewrite app_assoc, L.
    unfold strip, strip_p. destruct l as [|c l]; [reflexivity|]. cbn [app lstrip_p]. inversion F as [|? ? Fc Fl]; subst. rewrite Fc.
    unfold rstrip_p. change (c :: l ++ [cr]) with ((c :: l) ++ [cr]). rewrite rev_app_distr. cbn [rev app].
    change (lstrip_p is_space (cr :: rev l ++ [c])) with (lstrip_p is_space (rev (c :: l))).
    change (rstrip_p is_space (c :: l) = c :: l). assert (X := strip_nospace (c :: l) F). unfold strip, strip_p in X. cbn [lstrip_p] in X. now rewrite Fc in X.
Qed.
Lemma lines_of_file eol lines : line_end eol -> Forall nospace lines -> lines_of (file_text eol lines) = lines ++ [[]].
Proof.
  intros E F. unfold lines_of, file_text. induction F as [|l lines N F IH]; [reflexivity|]. cbn [map List.concat app].
  assert (X : exists a, l ++ eol = a ++ [nl] /\ strip a = l /\ ~ In nl a).
  { exists (removelast (l ++ eol)). split; [|split; [now apply strip_eol|]].
    - destruct E as [->| ->]; [now rewrite removelast_last|]. change (l ++ [cr; nl]) with (l ++ [cr] ++ [nl]). rewrite app_assoc, removelast_last. reflexivity.
    - apply nospace_nl in N. destruct E as [->| ->]; [now rewrite removelast_last|]. change (l ++ [cr; nl]) with (l ++ [cr] ++ [nl]). rewrite app_assoc, removelast_last.
      intros I. apply in_app_or in I as [I|[I|[]]]; [auto|discriminate]. }
  destruct X as (a & -> & Sa & Na). rewrite <- app_assoc. cbn [app]. rewrite (split_on_app nl) by exact Na. cbn [map]. rewrite Sa, IH. reflexivity.
Qed.

(** ** Tool definitions *)
Lemma letters_num c : In c tool_letters -> num_char c = false /\ is_cmd c = true.
Proof. intros I. repeat destruct I as [<-|I]; try (split; reflexivity). destruct I. Qed.
Lemma num_not_cmd c : num_char c = true -> is_cmd c = false.
Proof.
  intros H. destruct (is_cmd c) eqn:E; [|reflexivity]. exfalso. unfold is_cmd in E. apply char_in_true in E.
  repeat destruct E as [<-|E]; try discriminate. destruct E.
Qed.
Definition cmd_head (r : text) : Prop := match r with c :: _ => is_cmd c = true | [] => True end.
Lemma commands_skip v r : nums v -> commands (v ++ r) = commands r.
Proof. intros N. induction N as [|c v Hc N IH]; [reflexivity|]. cbn [app commands]. now rewrite num_not_cmd. Qed.
Lemma commands_param c v r : is_cmd c = true -> nums v -> cmd_head r -> commands (c :: v ++ r) = (c, v) :: commands r.
Proof.
  intros Hc N Hr. cbn [commands]. rewrite Hc, (commands_skip v r N). f_equal. f_equal.
  induction N as [|x v Hx N IH]; cbn [app].
  - destruct r as [|x r]; [reflexivity|]. unfold cmd_head in Hr. now rewrite Hr.
  - rewrite num_not_cmd by exact Hx. now rewrite IH.
Qed.

Section Header.
Variable holesize : unit_ -> text -> res (option tool).
Variables (i d : nat) (z : zkind).
Hypothesis Hr : readable i d.

Lemma params_head l r : params_say i d z l r -> cmd_head r.
Proof. intros [|c t v l' r' I R P]; cbn; [exact I|]. apply letters_num in I. apply I. Qed.
Lemma params_chars l r c : params_say i d z l r -> num_char c = false -> ~ In c tool_letters -> ~ In c r.
Proof.
  intros P E N. induction P as [|x t v l r I R P IH]; [auto|]. intros [->|J]; [contradiction|]. apply in_app_or in J as [J|J]; [|auto].
  exact (nums_not_in _ _ (proj1 (reads_nums _ _ _ _ _ R)) E J).
Qed.
Lemma set_params_say se l r : params_say i d z l r -> xs_format se = (i, d) -> xs_zeros se = z -> forall n t,
  exists t', set_params se (commands r) n t = Ok (n, t') /\ t_num t' = t_num t /\ t_hits t' = t_hits t /\ t_plated t' = t_plated t /\
    t_diam t' = match param "C"%char l with Some v => Some v | None => t_diam t end.
Proof.
  intros P Ef Ez. induction P as [|c s v l r I R P IH]; intros n t.
  - exists t. cbn. auto.
  - rewrite commands_param by (try apply (proj1 (reads_nums _ _ _ _ _ R)); try exact (params_head _ _ P); apply letters_num; exact I).
    assert (PV : parse_value se s = Ok v) by (eapply reads_parse; eassumption).
    cbn [set_params param]. unfold set_param.
    repeat destruct I as [<-|I]; cbn [ceq Ascii.eqb Bool.eqb]; try destruct I;
      cbv zeta; repeat match goal with |- context [ceq ?a ?b] => let v := eval vm_compute in (ceq a b) in change (ceq a b) with v end;
      cbn iota; rewrite PV; cbn [bind fst snd];
      match goal with |- context [set_params se _ n ?t0] => destruct (IH n t0) as (t' & E & A & B & C & D') end;
      rewrite E; exists t'; (repeat split); auto; rewrite D'; cbn; destruct (param "C" l); reflexivity.
Qed.
Lemma read_tool_says se p x line : defines i d z x line -> xs_format se = (i, d) -> xs_zeros se = z ->
  exists t, read_tool se p line = Ok t /\ t_num t = d_num x /\ t_diam t = param "C"%char (d_params x) /\ t_hits t = 0%nat /\ t_plated t = p.
Proof.
  intros [n ds ps t Dd Nd En P] Ef Ez. unfold read_tool. cbn [T list_ascii_of_string app].
  rewrite commands_param; [|reflexivity|now apply digits_nums|exact (params_head _ _ P)]. cbn [set_params].
  unfold set_param at 1. cbv zeta.
  repeat match goal with |- context [ceq ?a ?b] => let v := eval vm_compute in (ceq a b) in change (ceq a b) with v end.
  cbn iota. rewrite py_int_s_digits by auto. cbn [bind fst snd t_num t_retract t_feed t_maxhit t_rpm t_diam t_depth t_plated t_hits t_set].
  destruct (set_params_say se ps t P Ef Ez (Some (int_of ds)) (mkTool (int_of ds) None None None None None None p 0 se)) as (t' & E & A & B & C & D').
  rewrite E. cbn [bind fst snd]. exists t'. cbn in A, B, C, D'. rewrite A, B, C, D'. cbn [d_num d_params]. rewrite En. destruct (param "C" ps); auto.
Qed.

Variables (u : unit_) (inc : bool).
Record hsim (defs : list definition) (st : xst) : Prop := mkHsim {
  h_prev : x_prev st = [];
  h_state : x_state st = SHeader;
  h_fmt : x_format st = [Z.of_nat i; Z.of_nat d];
  h_zeros : x_zeros st = z;
  h_units : x_units st = u;
  h_not : x_notation st = if inc then Incremental else Absolute;
  h_pos : x_pos st = (0, 0);
  h_down : x_down st = false;
  h_wf : wf st;
  h_act : x_active st = None;
  h_hits : x_hits st = [];
  h_ct : x_ctools st = [];
  h_ext : x_ext st = [];
  h_dv : forall n, dv st n = diameter defs u n;
  h_def : forall n, lookup st n = None <-> defined n defs = None }.

Lemma defined_snoc n l x : defined n (l ++ [x]) = if (d_num x =? n)%Z then Some x else defined n l.
Proof. induction l as [|y l IH]; cbn; [reflexivity|]. rewrite IH. destruct (d_num x =? n)%Z; reflexivity. Qed.

Lemma hsim_step defs st x line : hsim defs st -> defines i d z x line ->
  exists st', parse_line holesize st line = Ok st' /\ hsim (defs ++ [x]) st'.
Proof.
  intros S X. assert (SE := settings_fmt st i d (h_fmt _ _ S)). set (se := mkXset _ _ _ _) in SE.
  destruct (read_tool_says se (x_plated st) x line X eq_refl (h_zeros _ _ S)) as (t & RT & Tn & Td & Th & Tp).
  assert (CH : forall c, num_char c = false -> ~ In c tool_letters -> c <> "T"%char -> ~ In c line /\ exists r, line = "T"%char :: r).
  { destruct X as [n ds ps r Dd Nd En P]. intros c H1 H2 H3. split; [|cbn; eauto].
    cbn [T list_ascii_of_string app]. intros [I|I]; [congruence|]. apply in_app_or in I as [I|I]; [exact (nums_not_in _ _ (digits_nums _ Dd) H1 I)|].
    exact (params_chars _ _ _ P H1 H2 I). }
  assert (XL : exists r, line = "T"%char :: r) by (apply (CH "I"%char); [reflexivity|cbn; intuition discriminate|discriminate]).
  destruct XL as [r ->].
  assert (NC : forall c, num_char c = false -> ~ In c tool_letters -> c <> "T"%char -> ~ In c r) by (intros c H1 H2 H3 I; apply (proj1 (CH c H1 H2 H3)); now right).
  rewrite dispatch_t; [|apply S|apply NC; [reflexivity|cbn; intuition discriminate|discriminate]..].
  assert (IH : is_header st = true) by (unfold is_header; now rewrite (h_state _ _ S)). rewrite IH. unfold tool_line.
  assert (CM : ~ In ","%char ("T"%char :: r)) by (apply (CH ","%char); [reflexivity|cbn; intuition discriminate|discriminate]).
  assert (C1 : text_in (T ",OFF") ("T"%char :: r) = false) by (now apply text_in_absent).
  assert (C2 : text_in (T ",ON") ("T"%char :: r) = false) by (now apply text_in_absent). rewrite C1, C2. cbn [orb].
  rewrite SE. cbn [bind]. rewrite RT. cbn [bind]. rewrite (h_ext _ _ S). cbn [dget].
  assert (MT : match t_plated t with Some _ => t | None => t end = t) by (destruct (t_plated t); reflexivity). rewrite MT. clear MT.
  eexists. split; [reflexivity|]. set (st' := add_stmt _ _).
  assert (W : wf st').
  { eapply ev_wf with (holesize := holesize) (f := false); [eapply ev_trans; [apply (ev_define holesize false t st Th)|apply ev_same; repeat split]|apply S]. }
  assert (LK : forall n, lookup st' n = if (d_num x =? n)%Z then Some (List.length (x_store st)) else lookup st n).
  { intros n. unfold lookup, st'. cbn. rewrite Tn. destruct (Z.eqb_spec (d_num x) n) as [Eq|NE]; [rewrite Eq; now rewrite dget_dput_same|].
    rewrite dget_dput_other by exact NE. reflexivity. }
  destruct S. constructor; auto.
  - intros n. unfold dv, diameter. rewrite LK, defined_snoc. destruct (Z.eqb_spec (d_num x) n) as [Eq|NE].
    + unfold st'. cbn. rewrite tget_app_new. exact Td.
    + specialize (h_dv0 n). unfold dv, diameter in h_dv0. destruct (lookup st n) as [l|] eqn:L.
      * rewrite <- h_dv0. destruct (lookup_some st n l h_wf0 L) as (tl & Etl & _). unfold st'. cbn. rewrite tget_app_old by congruence. reflexivity.
      * rewrite <- h_dv0. reflexivity.
  - intros n. rewrite LK, defined_snoc. destruct (d_num x =? n)%Z; [split; discriminate|apply h_def0].
Qed.
Lemma hsim_run more : forall lines defs st, hsim defs st -> Forall2 (defines i d z) more lines ->
  exists st', parse_lines holesize st lines = Ok st' /\ hsim (defs ++ more) st'.
Proof.
  induction more as [|x more IH]; intros lines defs st S F; inversion F as [|? line ? lines' X F']; subst.
  - exists st. rewrite app_nil_r. auto.
  - destruct (hsim_step defs st x line S X) as (s1 & E1 & S1). cbn [parse_lines]. rewrite E1. cbn [bind].
    destruct (IH lines' _ s1 S1 F') as (s2 & E2 & S2). exists s2. split; [exact E2|]. now rewrite <- app_assoc in S2.
Qed.
End Header.

Lemma dispatch_unit holesize st u z fo tu : x_prev st = [] -> format_text fo tu ->
  parse_line holesize st (unit_text u ++ zeros_text z ++ tu) = Ok
    (let st := with_zeros z (with_units u (add_stmt (EUnit u z fo) st)) in
     match fo with Some (a, b) => with_format [Z.of_nat a; Z.of_nat b] st | None => st end).
Proof.
  intros E F. destruct st. cbn in E. subst. destruct F, u, z; reflexivity.
Qed.

Lemma says_nospace i d z x l : says i d z x l -> nospace l.
Proof.
  assert (N : forall s, nums s -> nospace s) by exact nums_space.
  assert (FD : forall l t v, is_space (hd " "%char (T l)) = false -> (List.length (T l) = 1)%nat -> field_reads i d z l t v -> nospace t).
  { intros l0 t v H L [|t' v' R]; [constructor|]. apply Forall_app; split; [|apply N; apply (reads_nums _ _ _ _ _ R)].
    destruct (T l0) as [|c [|c' q]]; try discriminate. constructor; [exact H|constructor]. }
  intros [n ds Dd Nd Ld En|n ds cs Dd Ld En Dc Lc| | | |a b tx ty Fx Fy _|k ds a b tx ty Dd Nd En Fx Fy].
  - constructor; [reflexivity|]. now apply N, digits_nums.
  - constructor; [reflexivity|]. apply Forall_app; split; now apply N, digits_nums.
  - repeat constructor.
  - repeat constructor.
  - repeat constructor.
  - apply Forall_app; split; [exact (FD "X"%string tx a eq_refl eq_refl Fx)|exact (FD "Y"%string ty b eq_refl eq_refl Fy)].
  - constructor; [reflexivity|]. apply Forall_app; split; [now apply N, digits_nums|].
    apply Forall_app; split; [exact (FD "X"%string tx a eq_refl eq_refl Fx)|exact (FD "Y"%string ty b eq_refl eq_refl Fy)].
Qed.
Lemma defines_nospace i d z x l : defines i d z x l -> nospace l.
Proof.
  intros [n ds ps t Dd Nd En P]. constructor; [reflexivity|]. apply Forall_app; split; [now apply nums_space, digits_nums|].
  clear - P. induction P as [|c t v l r I R P IH]; [constructor|]. constructor.
  - repeat destruct I as [<-|I]; try reflexivity. destruct I.
  - apply Forall_app; split; [apply nums_space; apply (reads_nums _ _ _ _ _ R)|exact IH].
Qed.
Lemma Forall2_right {A B} (R : A -> B -> Prop) (P : B -> Prop) l m : (forall a b, R a b -> P b) -> Forall2 R l m -> Forall P m.
Proof. intros H F. induction F; constructor; eauto. Qed.

Lemma C36_lemma holesize se u z fo tu i d defs dl e prog body tail eol :
  format_text fo tu -> (i, d) = match fo with Some f => f | None => xs_format se end -> readable i d ->
  Forall2 (defines i d z) defs dl -> (e = T "%" \/ e = T "M95") -> Forall2 (says i d z) prog body ->
  (tail = [] \/ tail = [T "M30"]) -> line_end eol -> tool_known (is_defined 1 defs) prog ->
  exists f, parse_raw holesize se [] (file_text eol (T "M48" :: (unit_text u ++ zeros_text z ++ tu) :: dl ++ e :: body ++ tail)) = Ok f /\
    map (hole_view (xf_store f)) (xf_hits f) =
      map (fun h => Some (fst h, diameter defs u (fst h), snd h)) (holes None (start_inc se) (0, 0) prog) /\
    xs_units (xf_set f) = u /\ xs_format (xf_set f) = (i, d) /\ xs_zeros (xf_set f) = z.
Proof.
  intros Ft Ei Hr Fd He Fp Htl Eo K. unfold parse_raw. rewrite lines_of_file; [|exact Eo|].
  2: { constructor; [repeat constructor|]. constructor.
       { destruct Ft, u, z; repeat constructor. }
       apply Forall_app; split; [eapply Forall2_right; [|exact Fd]; intros; eapply defines_nospace; eassumption|].
       constructor; [destruct He as [->| ->]; repeat constructor|].
       apply Forall_app; split; [eapply Forall2_right; [|exact Fp]; intros; eapply says_nospace; eassumption|].
       destruct Htl as [->| ->]; repeat constructor. }
  set (inc := start_inc se). rewrite <- app_comm_cons, <- app_comm_cons. cbn [parse_lines]. rewrite dispatch_m48 by reflexivity. cbn [bind].
  rewrite (fun st H => dispatch_unit holesize st u z fo tu H Ft) by reflexivity. cbn [bind]. match goal with |- context [parse_lines holesize ?s _] => set (s0 := s) end.
  assert (H0 : hsim i d z u inc [] s0).
  { unfold s0. assert (Wx := x_start_wf se []). 
    assert (D0 : forall fm, x_format fm = [Z.of_nat i; Z.of_nat d] -> x_zeros fm = z -> x_units fm = u -> x_prev fm = [] -> x_state fm = SHeader ->
      x_notation fm = x_notation (x_start se []) -> x_pos fm = (0, 0) -> x_down fm = false -> same_core (x_start se []) fm -> hsim i d z u inc [] fm).
    { intros fm F1 F2 F3 F4 F5 F6 F7 F8 C. assert (W : wf fm) by (eapply ev_wf with (holesize := holesize) (f := false); [apply ev_same; exact C|exact Wx]).
      destruct C as (C1 & C2 & C3 & C4 & C5 & C6). cbn in C1, C2, C3, C4, C5, C6. constructor; auto.
      - rewrite F6. cbn. unfold inc, start_inc. destruct (xs_notation se); reflexivity.
      - intros n. unfold dv, lookup. rewrite <- C2, <- C3, <- C4. cbn. rewrite F3. unfold default_diam, metric, zq. destruct u; f_equal.
      - intros n. unfold lookup. rewrite <- C2, <- C3, <- C4. cbn. split; reflexivity. }
    destruct fo as [[a b]|].
    - injection Ei as -> ->. apply D0; try reflexivity; repeat split.
    - apply D0; try reflexivity; [|repeat split]. cbn. now rewrite <- Ei. }
  rewrite parse_lines_app. change ((dl ++ e :: body ++ tail) ++ [[]]) with ((dl ++ e :: body ++ tail) ++ [[]]).
  replace ((dl ++ e :: body ++ tail)) with (dl ++ (e :: body ++ tail)) by reflexivity. rewrite parse_lines_app.
  destruct (hsim_run holesize i d z Hr u inc defs dl [] s0 H0 Fd) as (s1 & E1 & S1). rewrite E1. cbn [bind parse_lines]. cbn [app] in S1.
  assert (E2 : exists s2, parse_line holesize s1 e = Ok s2 /\ sim i d z u (diameter defs u) (is_defined 1 defs) SDrill false s2 None inc (0, 0) /\ x_hits s2 = []).
  { assert (G : forall x, sim i d z u (diameter defs u) (is_defined 1 defs) SDrill false (with_state SDrill (add_stmt x s1)) None inc (0, 0)).
    { intros x. assert (W : wf (with_state SDrill (add_stmt x s1))) by (eapply (ev_wf holesize false s1); [apply ev_same; repeat split|apply S1]).
      destruct S1. constructor; auto. unfold is_defined. intros O X. change (lookup s1 1 = None) in X. apply h_def0 in X. rewrite X in O. discriminate. }
    destruct He as [->| ->]; [rewrite dispatch_rewind by apply S1|rewrite dispatch_m95 by apply S1]; eexists; (split; [reflexivity|]); (split; [apply G|]); apply S1. }
  destruct E2 as (s2 & E2 & S2 & H2). rewrite E2. cbn [bind]. rewrite parse_lines_app.
  destruct (sim_run holesize i d z u (diameter defs u) (is_defined 1 defs) SDrill false Hr ltac:(discriminate) prog body s2 None inc (0, 0) S2 Fp K eq_refl) as (s3 & new & [[cur' inc'] p'] & E3 & S3 & H3 & V3).
  rewrite E3. cbn [bind].
  destruct (sim_settings _ _ _ _ _ _ _ _ _ _ _ _ S3) as (se3 & Es & Ef & Ez & Eu).
  assert (E4 : exists s4, parse_lines holesize s3 tail = Ok s4 /\ x_hits s4 = x_hits s3 /\ x_store s4 = x_store s3 /\ settings_of s4 = settings_of s3 /\ x_prev s4 = []).
  { destruct Htl as [->| ->]; [exists s3; cbn; repeat split; auto; apply S3|]. cbn [parse_lines].
    rewrite (dispatch_m30 _ _ se3) by (auto; apply S3). eexists. cbn [bind]. split; [reflexivity|]. repeat split. apply S3. }
  destruct E4 as (s4 & E4 & H4 & St4 & Se4 & P4). rewrite E4. cbn [bind]. rewrite dispatch_blank by exact P4. cbn [bind].
  rewrite Se4, Es. cbn [bind]. eexists. split; [reflexivity|]. cbn. rewrite H4, St4, H3, H2. cbn [app].
  split; [|auto]. clear - V3. induction V3 as [|h x hs xs V _ IH]; [reflexivity|]. cbn [map]. now rewrite V, IH.
Qed.
