(** Tool changes without a number. *)
From Verif Require Import PyBase QcLib NumModel NumSpec NumProofs FmtModel FmtProofs Regex GerberText GerberTextProofs MacroProofs
  ExcellonModel ExcellonFile ExcellonSpec ExcellonProofs ExcellonRun NextToolSpec.
From Coq Require Import Lia.
Import ListNotations.
Open Scope list_scope.
Open Scope Qc_scope.

Lemma dput_keeps {V} (m : list (Z * V)) n k v : dget n m <> None -> dget n (dput k v m) <> None.
Proof. intros H. destruct (Z.eq_dec k n) as [->|N]; [rewrite dget_dput_same; discriminate|now rewrite dget_dput_other]. Qed.
Lemma or_else {A} (a a' r r' : option A) : (a <> None -> a' <> None) -> (r <> None -> r' <> None) ->
  match a with Some l => Some l | None => r end <> None -> match a' with Some l => Some l | None => r' end <> None.
Proof. destruct a, a'; intros H K Q; try discriminate; [now destruct H|auto]. Qed.
Lemma ev_lookup holesize f a b n : ev holesize f a b -> lookup a n <> None -> lookup b n <> None.
Proof.
  intros E. induction E as [a b C|a b c _ IH1 _ IH2|k l se a _ _|k l a _|a|t a _|l p a _|u0 c t a _|h l a _ _|h a _ _ _]; auto.
  - destruct C as (_ & C2 & C3 & C4 & _). unfold lookup. now rewrite <- C2, <- C3, <- C4.
  - apply or_else; [apply dput_keeps|auto].
  - apply or_else; [apply dput_keeps|auto].
  - apply or_else; [auto|]. apply or_else; [apply dput_keeps|auto].
Qed.

Section Change.
Variable holesize : unit_ -> text -> res (option tool).
Variables (i d : nat) (z : zkind) (u : unit_) (D : Z -> option Qc) (one : bool) (dn : bool).
Hypothesis Hr : readable i d.
Notation sim := (sim i d z u D one SDrill dn).

Lemma change_step st n inc p : sim st (Some n) inc p -> lookup st (n + 1) <> None ->
  exists st', parse_line holesize st (T "M00") = Ok st' /\ sim st' (Some (n + 1)%Z) inc p /\ x_hits st' = x_hits st.
Proof.
  intros S L. destruct (lookup st (n + 1)) as [l|] eqn:E; [|contradiction]. clear L.
  destruct (s_cur _ _ _ _ _ _ _ _ _ _ _ _ S) as (k & A & Tk). pose proof (s_prev _ _ _ _ _ _ _ _ _ _ _ _ S) as P. pose proof (s_state _ _ _ _ _ _ _ _ _ _ _ _ S) as St.
  assert (LK : lookup st n = Some k) by (unfold lookup; now rewrite Tk).
  destruct (lookup_some st n k (s_wf _ _ _ _ _ _ _ _ _ _ _ _ S) LK) as (t & Et & En).
  destruct (get_tool_found st (n + 1) l i d (s_fmt _ _ _ _ _ _ _ _ _ _ _ _ S) E) as (s2 & G & R & _ & Tn & LK2 & DV & _).
  exists (with_active (Some l) (add_stmt (ENext k (Some l)) s2)). split.
  - unfold parse_line. rewrite P. cbn [app]. rewrite with_prev_same by exact P. change (strip (T "M00")) with (T "M00"). cbn iota beta zeta. unfold is_drill. rewrite St. cbn - [get_tool tget Z.add]. rewrite A, Et, En. rewrite G. reflexivity.
  - destruct (get_tool_ev holesize false _ _ _ _ G) as [Ev _].
    assert (W : wf s2) by (eapply ev_wf; [exact Ev|apply S]).
    destruct R as (R1 & R2 & R3 & R4 & R5 & R6 & R7 & R8 & R9 & R10). split; [|cbn; congruence].
    destruct S. constructor; cbn; try congruence.
    + eapply ev_wf with (holesize := holesize) (f := false); [|exact W]. apply ev_trans with (with_active (Some l) s2); [now apply (ev_select holesize false (n + 1) l)|apply ev_same; repeat split].
    + eauto.
    + intros j. rewrite <- s_dv. exact (DV j).
    + intros O. change (lookup s2 1 <> None). rewrite LK2. auto.
Qed.
Definition known_in (known : Z -> bool) (st : xst) : Prop := forall n, known n = true -> lookup st n <> None.
Lemma int_of_pos ds : digit_string ds -> (0 <= int_of ds)%Z.
Proof. intros H. rewrite int_of_dval by exact H. apply dval_nonneg. now apply digit_string_iff. Qed.
Lemma change_run prog : forall lines st cur inc p known, sim st cur inc p -> Forall2 (step_says i d z) prog lines -> known_in known st ->
  match cur with Some n => (0 <= n)%Z | None => True end -> changes_known known cur prog ->
  tool_known one (match cur with Some n => Use 1 :: spelled cur prog | None => spelled cur prog end) ->
  exists st' new c', parse_lines holesize st lines = Ok st' /\ (let '(cur', inc', p') := c' in sim st' cur' inc' p') /\
    x_hits st' = x_hits st ++ new /\ Forall2 (view_ok D (x_store st')) new (holes cur inc p (spelled cur prog)).
Proof.
  induction prog as [|x prog IH]; intros lines st cur inc p known S F Kn Pos C K.
  - inversion F; subst. exists st, [], (cur, inc, p). rewrite app_nil_r. split; [reflexivity|]. split; [exact S|]. split; [reflexivity|constructor].
  - inversion F as [|? line ? lines' Sx F']; subst. cbn [parse_lines]. destruct Sx as [x line Sx|].
    + cbn [spelled] in *. cbn [changes_known] in C. destruct (sim_step holesize i d z u D one SDrill dn Hr ltac:(discriminate) st cur inc p x line (spelled (in_use x cur) prog) S Sx K ltac:(now destruct x)) as (s1 & n1 & E1 & S1 & H1 & V1).
      rewrite holes_cons. assert (IU : in_use x cur = fst (fst (run1 x (cur, inc, p)))) by (destruct x; try reflexivity; cbn; destruct cur; reflexivity).
      destruct (run1 x (cur, inc, p)) as [[cur' inc'] p'] eqn:R. cbn [fst] in IU. rewrite E1. cbn [bind]. rewrite IU in *.
      assert (L1 : forall n, lookup st n <> None -> lookup s1 n <> None) by (intros n; eapply ev_lookup, parse_line_ev; exact E1).
      destruct (IH lines' s1 cur' inc' p' (match x with Use k => fun m => (m =? k)%Z && negb (k =? 0)%Z || known m | _ => known end) S1 F') as (s2 & n2 & c2 & E2 & S2 & H2 & V2); [|idtac|exact C|idtac|].
      * destruct x as [k| | |a b|k dx dy]; try (intros n Hn; apply L1, Kn, Hn). intros n Hn. apply orb_prop in Hn as [Hn|Hn]; [|now apply L1, Kn].
        apply andb_prop in Hn as [H H0]. apply Z.eqb_eq in H. subst n. apply Bool.negb_true_iff in H0. cbn in R. rewrite H0 in R. injection R as <- <- <-.
        destruct (s_cur _ _ _ _ _ _ _ _ _ _ _ _ S1) as (l & _ & Tl). unfold lookup. rewrite Tl. discriminate.
      * destruct Sx as [n ds Dd _ _ En|n ds cs Dd _ En _ _| | | |a b tx ty _ _ _|k ds a b tx ty _ _ _ _ _]; cbn in R; injection R as <- _ _; auto.
        -- destruct (n =? 0)%Z; [exact Pos|]. subst n. now apply int_of_pos.
        -- destruct (n =? 0)%Z; [exact Pos|]. subst n. now apply int_of_pos.
        -- destruct cur; lia.
      * destruct cur as [n|].
        -- assert (cur' <> None) as NN by (destruct x; cbn in R; injection R as <- _ _; try discriminate; destruct (n0 =? 0)%Z; discriminate).
           destruct cur'; [left; discriminate|contradiction].
        -- destruct x as [n| | |a b|k dx dy]; cbn in R, K; injection R as <- _ _.
           ++ destruct (Z.eqb_spec n 0) as [->|NE]; [destruct K as [K|K]; [contradiction|exact K]|left; discriminate].
           ++ exact K.
           ++ exact K.
           ++ left; discriminate.
           ++ contradiction.
      * exists s2, (n1 ++ n2), c2. split; [exact E2|]. split; [exact S2|]. split; [rewrite H2, H1, app_assoc; reflexivity|].
        apply Forall2_app; [|exact V2]. destruct (parse_lines_wf holesize _ _ _ E2 (s_wf _ _ _ _ _ _ _ _ _ _ _ _ S1)) as [_ G].
        clear - V1 G. induction V1 as [|h e hs es V _ IHV]; constructor; [|exact IHV]. unfold view_ok in *. eapply view_grows; eassumption.
    + cbn [changes_known] in C. destruct cur as [n|]; [|contradiction]. destruct C as [C1 C2]. destruct (change_step st n inc p S (Kn _ C1)) as (s1 & E1 & S1 & H1). rewrite E1. cbn [bind].
      destruct (IH lines' s1 (Some (n + 1)%Z) inc p known S1 F') as (s2 & n2 & c2 & E2 & S2 & H2 & V2).
      * intros m Hm. eapply ev_lookup; [eapply parse_line_ev; exact E1|now apply Kn].
      * lia.
      * exact C2.
      * left. discriminate.
      * exists s2, n2, c2. split; [exact E2|]. split; [exact S2|]. split; [now rewrite H2, H1|].
        cbn [spelled holes]. replace (n + 1 =? 0)%Z with false by (symmetry; apply Z.eqb_neq; lia). exact V2.
Qed.
End Change.
Lemma step_nospace i d z x l : step_says i d z x l -> nospace l.
Proof. intros [y t S|]; [eapply says_nospace; exact S|repeat constructor]. Qed.
Lemma change_file holesize se u z fo tu i d defs dl e prog body tail eol :
  format_text fo tu -> (i, d) = match fo with Some f => f | None => xs_format se end -> readable i d ->
  Forall2 (defines i d z) defs dl -> (e = T "%" \/ e = T "M95") -> Forall2 (step_says i d z) prog body ->
  (tail = [] \/ tail = [T "M30"]) -> line_end eol -> tool_known (is_defined 1 defs) (spelled None prog) -> changes_known (fun n => is_defined n defs) None prog ->
  exists f, parse_raw holesize se [] (file_text eol (T "M48" :: (unit_text u ++ zeros_text z ++ tu) :: dl ++ e :: body ++ tail)) = Ok f /\
    map (hole_view (xf_store f)) (xf_hits f) =
      map (fun h => Some (fst h, diameter defs u (fst h), snd h)) (holes None (start_inc se) (0, 0) (spelled None prog)) /\
    xs_units (xf_set f) = u /\ xs_format (xf_set f) = (i, d) /\ xs_zeros (xf_set f) = z.
Proof.
  intros Ft Ei Hr Fd He Fp Htl Eo K KC. unfold parse_raw. rewrite lines_of_file; [|exact Eo|].
  2: { constructor; [repeat constructor|]. constructor.
       { destruct Ft, u, z; repeat constructor. }
       apply Forall_app; split; [eapply Forall2_right; [|exact Fd]; intros; eapply defines_nospace; eassumption|].
       constructor; [destruct He as [->| ->]; repeat constructor|].
       apply Forall_app; split; [eapply Forall2_right; [|exact Fp]; intros; eapply step_nospace; eassumption|].
       destruct Htl as [->| ->]; repeat constructor. }
  set (inc := start_inc se). rewrite <- app_comm_cons, <- app_comm_cons. cbn [parse_lines]. rewrite dispatch_m48 by reflexivity. cbn [bind].
  rewrite (fun st H => dispatch_unit holesize st u z fo tu H Ft) by reflexivity. cbn [bind]. match goal with |- context [parse_lines holesize ?s _] => set (s0 := s) end.
  assert (H0 : hsim i d z u inc [] s0).
  { unfold s0. assert (Wx := x_start_wf se []). 
    assert (D0 : forall fm, x_format fm = [Z.of_nat i; Z.of_nat d] -> x_zeros fm = z -> x_units fm = u -> x_prev fm = [] -> x_state fm = SHeader ->
      x_notation fm = x_notation (x_start se []) -> x_pos fm = (0, 0) -> x_down fm = false -> same_core (x_start se []) fm -> hsim i d z u inc [] fm).
    { intros fm F1 F2 F3 F4 F5 F6 F7 F8 C. assert (W : wf fm) by (eapply ev_wf with (holesize := holesize) (f := false); [apply ev_same; exact C|exact Wx]).
      destruct C as (C1 & C2 & C3 & C4 & C5 & C6). cbn in C1, C2, C3, C4, C5, C6. constructor; auto.
      - rewrite F6. cbn. unfold inc, start_inc. destruct (xs_notation se); reflexivity.
      - intros n. unfold dv, lookup. rewrite <- C2, <- C3, <- C4. cbn. rewrite F3. unfold default_diam, metric, zq. destruct u; f_equal.
      - intros n. unfold lookup. rewrite <- C2, <- C3, <- C4. cbn. split; reflexivity. }
    destruct fo as [[a b]|].
    - injection Ei as -> ->. apply D0; try reflexivity; repeat split.
    - apply D0; try reflexivity; [|repeat split]. cbn. now rewrite <- Ei. }
  rewrite parse_lines_app. change ((dl ++ e :: body ++ tail) ++ [[]]) with ((dl ++ e :: body ++ tail) ++ [[]]).
  replace ((dl ++ e :: body ++ tail)) with (dl ++ (e :: body ++ tail)) by reflexivity. rewrite parse_lines_app.
  destruct (hsim_run holesize i d z Hr u inc defs dl [] s0 H0 Fd) as (s1 & E1 & S1). rewrite E1. cbn [bind parse_lines]. cbn [app] in S1.
  assert (E2 : exists s2, parse_line holesize s1 e = Ok s2 /\ sim i d z u (diameter defs u) (is_defined 1 defs) SDrill false s2 None inc (0, 0) /\ x_hits s2 = [] /\ known_in (fun n => is_defined n defs) s2).
  { assert (G : forall x, sim i d z u (diameter defs u) (is_defined 1 defs) SDrill false (with_state SDrill (add_stmt x s1)) None inc (0, 0)).
    { intros x. assert (W : wf (with_state SDrill (add_stmt x s1))) by (eapply (ev_wf holesize false s1); [apply ev_same; repeat split|apply S1]).
      destruct S1. constructor; auto. unfold is_defined. intros O X. change (lookup s1 1 = None) in X. apply h_def in X. rewrite X in O. discriminate. }
    assert (KI : known_in (fun n => is_defined n defs) s1) by (intros n Hn X; apply (h_def _ _ _ _ _ _ _ S1) in X; unfold is_defined in Hn; rewrite X in Hn; discriminate).
    destruct He as [->| ->]; [rewrite dispatch_rewind by apply S1|rewrite dispatch_m95 by apply S1]; eexists; (split; [reflexivity|]); (split; [apply G|]); (split; [apply S1|]); exact KI. }
  destruct E2 as (s2 & E2 & S2 & H2 & KI). rewrite E2. cbn [bind]. rewrite parse_lines_app.
  destruct (change_run holesize i d z u (diameter defs u) (is_defined 1 defs) false Hr prog body s2 None inc (0, 0) (fun n => is_defined n defs) S2 Fp KI I KC K) as (s3 & new & [[cur' inc'] p'] & E3 & S3 & H3 & V3).
  rewrite E3. cbn [bind].
  destruct (sim_settings _ _ _ _ _ _ _ _ _ _ _ _ S3) as (se3 & Es & Ef & Ez & Eu).
  assert (E4 : exists s4, parse_lines holesize s3 tail = Ok s4 /\ x_hits s4 = x_hits s3 /\ x_store s4 = x_store s3 /\ settings_of s4 = settings_of s3 /\ x_prev s4 = []).
  { destruct Htl as [->| ->]; [exists s3; cbn; repeat split; auto; apply S3|]. cbn [parse_lines].
    rewrite (dispatch_m30 _ _ se3) by (auto; apply S3). eexists. cbn [bind]. split; [reflexivity|]. repeat split. apply S3. }
  destruct E4 as (s4 & E4 & H4 & St4 & Se4 & P4). rewrite E4. cbn [bind]. rewrite dispatch_blank by exact P4. cbn [bind].
  rewrite Se4, Es. cbn [bind]. eexists. split; [reflexivity|]. cbn. rewrite H4, St4, H3, H2. cbn [app].
  split; [|auto]. clear - V3. induction V3 as [|h x hs xs V _ IH]; [reflexivity|]. cbn [map]. now rewrite V, IH.
Qed.
