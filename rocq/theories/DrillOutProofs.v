(** Proofs about the drill program writer. *)
From Verif Require Import PyBase QcLib NumModel NumSpec NumProofs FmtModel GerberText GerberTextProofs ExcellonModel ExcellonFile ExcellonSpec ExcellonProofs ExcellonRun ExcellonMore
  ToolSpec HeadSpec RoutSpec RoutRun DrillOutModel DrillOutSpec.
Open Scope list_scope.
Open Scope Qc_scope.

(** ** Written statements express steps *)
Definition step_of (e : estmt) : step :=
  match e with
  | ESel n _ => Plain (Use n)
  | ECoord None x y => Plain (At x y)
  | ECoord (Some Rout) x y => Move x y
  | ECoord (Some Linear) x y => Mill x y
  | EZRout => Lower
  | ERetractC | ERetract => Raise
  | EDrill => Drilling
  | ESlot a b x y => Groove a b x y
  | _ => Plain Abs
  end.
Definition ok_stmt (i d : nat) (e : estmt) : Prop :=
  match e with
  | ESel n None => (1 <= n < 1000)%Z
  | ECoord _ x y => grid_opt i d x /\ grid_opt i d y /\ (x <> None \/ y <> None)
  | ESlot (Some a) (Some b) (Some x) (Some y) => grid_value i d a /\ grid_value i d b /\ grid_value i d x /\ grid_value i d y
  | EAbs | EZRout | ERetractC | ERetract | EDrill => True
  | _ => False
  end.
Lemma place_written i d se x y : usable_format i d -> xs_format se = (i, d) -> grid_opt i d x -> grid_opt i d y -> (x <> None \/ y <> None) ->
  exists a b, field se "X" x = Ok a /\ field se "Y" y = Ok b /\ place i d (xs_zeros se) x y (a ++ b).
Proof.
  intros U F X Y N. destruct (field_written i d se "X" x U F X) as (a & Wa & Ra). destruct (field_written i d se "Y" y U F Y) as (b & Wb & Rb).
  exists a, b. split; [exact Wa|]. split; [exact Wb|]. now constructor.
Qed.
Lemma stmt_expresses i d se s u e : usable_format i d -> xs_format se = (i, d) -> ok_stmt i d e ->
  exists t, write_stmt se s (e, u) = Ok t /\ expresses i d (xs_zeros se) (step_of e) [t].
Proof.
  intros U F O. destruct e; try contradiction O; cbn [write_stmt fst step_of].
  - rename tool into n. destruct comp; [contradiction O|]. eexists. split; [reflexivity|]. rewrite app_nil_r. destruct (show2_spec n ltac:(cbn in O; lia)) as (D & V & L & _ & L3). apply ex_plain.
    apply (says_use i d _ n (show2 n)); [exact D|intros X; rewrite X in L; cbn in L; lia|apply L3; cbn in O; lia|exact V].
  - destruct O as (X & Y & N). destruct (place_written i d se x y U F X Y N) as (ta & tb & -> & -> & P). cbn [bind]. eexists. split; [reflexivity|].
    destruct mode as [[|]|]; cbn [mode_text]; [now apply ex_move|now apply ex_mill|]. apply ex_plain. inversion P; subst. cbn [app]. now constructor.
  - eexists. split; [reflexivity|constructor].
  - eexists. split; [reflexivity|constructor].
  - eexists. split; [reflexivity|constructor].
  - eexists. split; [reflexivity|constructor].
  - eexists. split; [reflexivity|]. apply ex_plain. constructor.
  - destruct xs as [a|], ys as [b|], xe as [x|], ye as [y|]; try contradiction O. destruct O as (A & B & X & Y).
    destruct (place_written i d se (Some a) (Some b) U F A B ltac:(left; discriminate)) as (t1 & t2 & -> & -> & P1).
    destruct (place_written i d se (Some x) (Some y) U F X Y ltac:(left; discriminate)) as (t3 & t4 & -> & -> & P2).
    cbn [bind]. eexists. split; [reflexivity|]. rewrite app_assoc. now constructor.
Qed.
Lemma body_expresses i d se s u l : usable_format i d -> xs_format se = (i, d) -> Forall (ok_stmt i d) l ->
  exists ts, mapM (fun e => write_stmt se s (e, u)) l = Ok ts /\ Forall2 (expresses i d (xs_zeros se)) (map step_of l) (map (fun t => [t]) ts).
Proof.
  intros U F O. induction O as [|e l O _ (ts & W & X)]; [exists []; split; [reflexivity|constructor]|].
  destruct (stmt_expresses i d se s u e U F O) as (t & Wt & Xt). exists (t :: ts). cbn [mapM]. rewrite Wt. cbn [bind]. rewrite W. split; [reflexivity|]. cbn [map]. now constructor.
Qed.

(** ** What one primitive adds *)
Section Run.
Variables (i d : nat) (s : list tool).

Record inv (c : octx) (cur : option Z) (p : point) (act : activity) : Prop := {
  inv_cur : match o_cur c with None => cur = None | Some l => exists t, nth_error s l = Some t /\ cur = Some (t_num t) end;
  inv_pos : o_pos c = (None, None) \/ o_pos c = (Some (fst p), Some (snd p));
  inv_act : o_slot_mode c = false -> act = Holing;
  inv_down : o_down c = true -> o_slot_mode c = true;
  inv_handled : match o_cur c with None => True | Some l => In l (o_handled c) end }.
(** The header lists the handled tools. *)
Definition listing (se : xset) (c : octx) : Prop :=
  o_header c = EUnit (xs_units se) (xs_zeros se) None :: map ETool (rev (o_handled c)) /\ NoDup (o_handled c) /\
  Forall (fun l => exists t, nth_error s l = Some t /\ writable_tool i d t) (o_handled c).

(** From [c] on, [new] is added to the body; the position is [p'] at the end. *)
Definition adds (c c' : octx) (new : list estmt) : Prop := o_body c' = o_body c ++ new /\ Forall (ok_stmt i d) new.

Lemma use_tool_spec se l t c cur p act : nth_error s l = Some t -> writable_tool i d t -> inv c cur p act -> listing se c ->
  exists c' new, use_tool false s l c = Ok c' /\ adds c c' new /\ inv c' (Some (t_num t)) p act /\ listing se c' /\
    o_down c' = o_down c /\ o_slot_mode c' = o_slot_mode c /\ o_pos c' = o_pos c /\ In l (o_handled c') /\ incl (o_handled c) (o_handled c') /\
    (o_cur c = None -> exists n r, new = ESel n None :: r /\ n <> 0%Z) /\
    (forall rest, marks cur false p act (o_down c) (map step_of (new ++ rest)) = marks (Some (t_num t)) false p act (o_down c) (map step_of rest)) /\
    (forall rest, sensible act (map step_of rest) -> sensible act (map step_of (new ++ rest))) /\
    (forall rest, supported false (map step_of rest) -> supported false (map step_of (new ++ rest))).
Proof.
  intros E W IV (LH & LN & LV). unfold use_tool, tool_at, tget. rewrite E. cbn [bind].
  set (c1 := if existsb (Nat.eqb l) (o_handled c) then c else _).
  assert (S1 : o_body c1 = o_body c /\ o_cur c1 = o_cur c /\ o_down c1 = o_down c /\ o_slot_mode c1 = o_slot_mode c /\ o_pos c1 = o_pos c /\ In l (o_handled c1) /\ listing se c1 /\ incl (o_handled c) (o_handled c1)).
  { unfold c1. destruct (existsb (Nat.eqb l) (o_handled c)) eqn:X.
    - apply existsb_exists in X as (k & I & K). apply Nat.eqb_eq in K. subst k. repeat split; auto. apply incl_refl.
    - cbn. split; [reflexivity|]. split; [reflexivity|]. split; [reflexivity|]. split; [reflexivity|]. split; [reflexivity|]. split; [now left|]. split; [|intros k K; now right]. split; [|split].
      + cbn [o_handled o_header rev]. rewrite LH, map_app. reflexivity.
      + constructor; [|exact LN]. intros I. assert (existsb (Nat.eqb l) (o_handled c) = true) by (apply existsb_exists; exists l; split; [exact I|apply Nat.eqb_refl]). congruence.
      + constructor; [eauto|exact LV]. }
  destruct S1 as (B1 & C1 & D1 & M1 & P1 & I1 & L1 & N1). clearbody c1.
  destruct W as [[Wn Wn'] _].
  destruct (match o_cur c1 with Some k => Nat.eqb k l | None => false end) eqn:Q.
  - exists c1, []. split; [reflexivity|]. split; [split; [now rewrite app_nil_r|constructor]|].
    rewrite C1 in Q. destruct (o_cur c) as [k|] eqn:K; [|discriminate]. apply Nat.eqb_eq in Q. subst k. destruct IV as [IC IP IA ID IH]. rewrite K in IC, IH. destruct IC as (t' & E' & Ec).
    assert (t' = t) by congruence. subst t'.
    split; [constructor; rewrite ?C1, ?P1, ?M1, ?D1; auto; eauto|]. split; [exact L1|]. repeat (split; [assumption|]). split; [discriminate|]. subst cur. split; [reflexivity|]. split; auto.
  - eexists. exists [ESel (t_num t) None]. split; [reflexivity|]. split; [split; [cbn; now rewrite B1|constructor; [cbn; lia|constructor]]|].
    destruct IV as [IC IP IA ID IH]. split; [constructor; cbn; rewrite ?P1, ?M1, ?D1; auto; eauto|]. split; [exact L1|]. cbn. repeat (split; [assumption|]).
    split; [intros _; exists (t_num t), []; split; [reflexivity|lia]|]. split; [|split].
    + intros rest. destruct (t_num t =? 0)%Z eqn:Z0; [apply Z.eqb_eq in Z0; lia|reflexivity].
    + auto.
    + auto.
Qed.
Lemma drill_mode_spec se c cur p act : inv c cur p act -> listing se c ->
  let c' := if o_slot_mode c then start_drill_mode c else c in
  exists new, adds c c' new /\ inv c' cur p Holing /\ listing se c' /\ o_down c' = false /\ o_slot_mode c' = false /\ o_pos c' = o_pos c /\ o_handled c' = o_handled c /\ o_cur c' = o_cur c /\
    (o_slot_mode c = false -> new = []) /\
    (forall rest, marks cur false p act (o_down c) (map step_of (new ++ rest)) = marks cur false p Holing false (map step_of rest)) /\
    (forall rest, sensible Holing (map step_of rest) -> sensible act (map step_of (new ++ rest))) /\
    (forall rest, supported false (map step_of rest) -> supported false (map step_of (new ++ rest))).
Proof.
  intros [IC IP IA ID IH] L. cbn zeta. destruct (o_slot_mode c) eqn:M.
  - unfold start_drill_mode. destruct (o_down c) eqn:D.
    + exists [ERetractC; ERetract; EDrill]. cbn. split; [split; [cbn; now rewrite <- app_assoc|repeat constructor]|]. split; [constructor; cbn; auto; discriminate|]. split; [exact L|].
      repeat (split; [reflexivity|]). split; [discriminate|]. repeat split; auto.
    + exists [EDrill]. cbn. split; [split; [reflexivity|repeat constructor]|]. split; [constructor; cbn; auto; rewrite D; discriminate|]. split; [exact L|]. split; [exact D|].
      repeat (split; [reflexivity|]). split; [discriminate|]. repeat split; auto.
  - exists []. rewrite (IA eq_refl) in *. split; [split; [now rewrite app_nil_r|constructor]|]. split; [constructor; auto; rewrite M; auto|]. split; [exact L|].
    destruct (o_down c) eqn:D; [discriminate (ID eq_refl)|]. repeat (split; [reflexivity || assumption|]). repeat split; auto.
Qed.
Lemma same_coord_spec v o : same_coord v o = true <-> o = Some v.
Proof.
  unfold same_coord. destruct o as [w|]; [|split; discriminate]. destruct (qceq_spec v w) as [->|N]; split; try congruence; reflexivity.
Qed.
Lemma simplify_reach q pos p : pos = (None, None) \/ pos = (Some (fst p), Some (snd p)) -> let '(x, y) := simplify q pos in reach false p x y = q.
Proof.
  intros IP. unfold simplify, reach, put. destruct q as [a b], p as [px py]. cbn [fst snd] in *. destruct IP as [->| ->]; cbn [fst snd].
  - reflexivity.
  - destruct (same_coord a (Some px)) eqn:A, (same_coord b (Some py)) eqn:B; try apply same_coord_spec in A; try apply same_coord_spec in B; congruence.
Qed.
Lemma simplify_ok q pos : grid_value i d (fst q) -> grid_value i d (snd q) -> pos <> (Some (fst q), Some (snd q)) ->
  let '(x, y) := simplify q pos in grid_opt i d x /\ grid_opt i d y /\ (x <> None \/ y <> None).
Proof.
  intros X Y N. unfold simplify. destruct (same_coord (fst q) (fst pos)) eqn:A, (same_coord (snd q) (snd pos)) eqn:B; cbn; repeat split; auto; try (left; discriminate); try (right; discriminate).
  exfalso. apply N. apply same_coord_spec in A. apply same_coord_spec in B. destruct pos. cbn in *. congruence.
Qed.
Lemma same_place_spec q pos : same_place q pos = true <-> pos = (Some (fst q), Some (snd q)).
Proof.
  unfold same_place. rewrite Bool.andb_true_iff, !same_coord_spec. destruct pos as [x y]. cbn. split; [intros [-> ->]; reflexivity|intros E; now injection E as -> ->].
Qed.

(** The number and the mark a primitive stands for. *)
Definition number_of (l : tloc) : Z := match nth_error s l with Some t => t_num t | None => 0%Z end.
Lemma prim_spec se c cur p act x l m t : inv c cur p act -> listing se c ->
  stands_for x = Some (l, m) -> nth_error s l = Some t -> writable_tool i d t ->
  Forall (fun q => grid_value i d (fst q) /\ grid_value i d (snd q)) (ends m) ->
  match m with Hole q => o_pos c <> (Some (fst q), Some (snd q)) | Milled a b => a <> b | _ => True end ->
  exists c' new act', render_prim false s c x = Ok c' /\ adds c c' new /\ inv c' (Some (t_num t)) (last_end m) act' /\ listing se c' /\
    o_pos c' = (Some (fst (last_end m)), Some (snd (last_end m))) /\ o_cur c' <> None /\ incl (o_handled c) (o_handled c') /\ In l (o_handled c') /\
    (o_cur c = None -> o_slot_mode c = false -> exists n r, new = ESel n None :: r /\ n <> 0%Z) /\
    (forall rest, marks cur false p act (o_down c) (map step_of (new ++ rest)) = (t_num t, m) :: marks (Some (t_num t)) false (last_end m) act' (o_down c') (map step_of rest)) /\
    (forall rest, sensible act' (map step_of rest) -> sensible act (map step_of (new ++ rest))) /\
    (forall rest, supported false (map step_of rest) -> supported false (map step_of (new ++ rest))).
Proof.
  intros IV L SF E W G N. destruct x as [q [k|]|a b [[k r]|]|]; try discriminate SF; cbn [render_prim].
  - (* a hole *)
    cbn in SF. injection SF as -> <-. cbn [last_end ends] in *. apply Forall_inv in G as [Gx Gy]. unfold render_drill.
    destruct (drill_mode_spec se c cur p act IV L) as (n1 & [B1 O1] & V1 & L1 & D1 & M1 & P1 & H1 & C1 & Z1 & K1 & S1 & T1). set (c1 := if o_slot_mode c then start_drill_mode c else c) in *. clearbody c1.
    destruct (use_tool_spec se l t c1 cur p Holing E W V1 L1) as (c2 & n2 & U2 & [B2 O2] & V2 & L2 & D2 & M2 & P2 & I2 & J2 & Z2 & K2 & S2 & T2).
    rewrite U2. cbn [bind]. pose proof (simplify_reach q (o_pos c2) p (inv_pos _ _ _ _ V2)) as R. pose proof (simplify_ok q (o_pos c2) Gx Gy) as OK.
    rewrite P2, P1 in *. specialize (OK N). destruct (simplify q (o_pos c)) as [x y]. eexists. exists (n1 ++ n2 ++ [ECoord None x y]), Holing. split; [reflexivity|].
    split; [split; [cbn; rewrite B2, B1, <- !app_assoc; reflexivity|apply Forall_app; split; [exact O1|apply Forall_app; split; [exact O2|constructor; [exact OK|constructor]]]]|].
    destruct V2 as [IC IP IA ID IH]. split; [constructor; cbn; auto|]. split; [exact L2|]. split; [reflexivity|]. split; [cbn; destruct (o_cur c2); [discriminate|discriminate IC]|].
    split; [cbn; rewrite <- H1; exact J2|]. split; [exact I2|].
    split. { intros C0 M0. rewrite (Z1 M0). cbn [app]. destruct (Z2 ltac:(congruence)) as (n & r & -> & Nz). exists n. eexists. split; [reflexivity|exact Nz]. }
    split; [|split].
    + intros rest. rewrite <- !app_assoc. rewrite K1. rewrite D1 in K2. rewrite K2. cbn [app map step_of marks]. rewrite R. cbn [tool_now]. cbn. rewrite D2, D1. reflexivity.
    + intros rest H. rewrite <- !app_assoc. apply S1, S2. exact H.
    + intros rest H. rewrite <- !app_assoc. apply T1, T2. exact H.
  - unfold render_slot. destruct (use_tool_spec se k t c cur p act) as (c1 & n1 & U1 & [B1 O1] & V1 & L1 & D1 & M1 & P1 & I1 & J1 & Z1 & K1 & S1 & T1); try assumption; try (destruct r; cbn in SF; congruence).
    rewrite U1. cbn [bind]. destruct r; cbn in SF; injection SF as -> <-; cbn [last_end ends] in *.
    + (* milled *)
      apply Forall_cons_iff in G as [[Gax Gay] G]. apply Forall_inv in G as [Gbx Gby].
      set (c2 := if same_place a (o_pos c1) then c1 else _).
      assert (S2 : exists n2 act2, adds c1 c2 n2 /\ listing se c2 /\ o_pos c2 = (Some (fst a), Some (snd a)) /\ o_handled c2 = o_handled c1 /\ o_cur c2 = o_cur c1 /\
        (forall rest, marks (Some (t_num t)) false p act (o_down c1) (map step_of (n2 ++ rest)) = marks (Some (t_num t)) false a act2 (o_down c2) (map step_of rest)) /\
        (forall rest, sensible act2 (map step_of rest) -> sensible act (map step_of (n2 ++ rest))) /\
        (forall rest, supported false (map step_of rest) -> supported false (map step_of (n2 ++ rest)))).
      { unfold c2. destruct (same_place a (o_pos c1)) eqn:SP.
        - apply same_place_spec in SP. exists [], act. split; [split; [now rewrite app_nil_r|constructor]|]. split; [exact L1|]. split; [exact SP|]. split; [reflexivity|]. split; [reflexivity|].
          assert (p = a) as -> by (destruct (inv_pos _ _ _ _ V1) as [X|X]; rewrite X in SP; [discriminate|injection SP as X1 X2; destruct a, p; cbn in *; congruence]).
          repeat split; auto.
        - assert (NP : o_pos c1 <> (Some (fst a), Some (snd a))) by (intros X; apply same_place_spec in X; congruence).
          pose proof (simplify_reach a (o_pos c1) p (inv_pos _ _ _ _ V1)) as R. pose proof (simplify_ok a (o_pos c1) Gax Gay NP) as OK.
          destruct (o_down c1) eqn:D; cbn [set_down emit o_pos]; destruct (simplify a (o_pos c1)) as [x y].
          + exists [ERetractC; ECoord (Some Rout) x y], Moving. split; [split; [cbn; rewrite <- app_assoc; reflexivity|constructor; [exact I|constructor; [exact OK|constructor]]]|].
            split; [exact L1|]. split; [reflexivity|]. split; [reflexivity|]. split; [reflexivity|]. split; [|split; auto].
            intros rest. cbn [app map step_of marks]. rewrite R. reflexivity.
          + exists [ECoord (Some Rout) x y], Moving. split; [split; [reflexivity|constructor; [exact OK|constructor]]|].
            split; [exact L1|]. split; [reflexivity|]. split; [reflexivity|]. split; [reflexivity|]. split; [|split; auto].
            intros rest. cbn [app map step_of marks]. rewrite R. cbn. rewrite D. reflexivity. }
      destruct S2 as (n2 & act2 & [B2 O2] & L2 & P2 & H2 & C2 & K2 & S2 & T2). clearbody c2.
      set (c3 := if o_down c2 then c2 else _).
      assert (S3 : exists n3, adds c2 c3 n3 /\ listing se c3 /\ o_pos c3 = o_pos c2 /\ o_handled c3 = o_handled c2 /\ o_cur c3 = o_cur c2 /\ o_down c3 = true /\
        (forall rest, marks (Some (t_num t)) false a act2 (o_down c2) (map step_of (n3 ++ rest)) = marks (Some (t_num t)) false a act2 true (map step_of rest)) /\
        (forall rest, sensible act2 (map step_of rest) -> sensible act2 (map step_of (n3 ++ rest))) /\
        (forall rest, supported false (map step_of rest) -> supported false (map step_of (n3 ++ rest)))).
      { unfold c3. destruct (o_down c2) eqn:D.
        - exists []. split; [split; [now rewrite app_nil_r|constructor]|]. split; [exact L2|]. repeat (split; [reflexivity || assumption|]). repeat split; auto.
        - exists [EZRout]. split; [split; [reflexivity|repeat constructor]|]. split; [exact L2|]. repeat (split; [reflexivity|]). repeat split; auto. }
      destruct S3 as (n3 & [B3 O3] & L3 & P3 & H3 & C3 & D3 & K3 & S3 & T3). clearbody c3.
      pose proof (simplify_reach b (o_pos c3) a) as R. pose proof (simplify_ok b (o_pos c3) Gbx Gby) as OK. rewrite P3, P2 in *.
      specialize (R (or_intror eq_refl)). specialize (OK ltac:(intros X; injection X as X1 X2; apply N; destruct a, b; cbn in *; congruence)).
      destruct (simplify b (Some (fst a), Some (snd a))) as [x y].
      eexists. exists (n1 ++ n2 ++ n3 ++ [ECoord (Some Linear) x y]), Milling. split; [reflexivity|].
      split; [split; [cbn; rewrite B3, B2, B1, <- !app_assoc; reflexivity|apply Forall_app; split; [exact O1|apply Forall_app; split; [exact O2|apply Forall_app; split; [exact O3|constructor; [exact OK|constructor]]]]]|].
      destruct V1 as [IC IP IA ID IH]. split; [constructor; cbn; rewrite ?C3, ?C2, ?H3, ?H2; auto; discriminate|]. split; [exact L3|]. split; [reflexivity|].
      split; [cbn; rewrite C3, C2; destruct (o_cur c1); [discriminate|discriminate IC]|].
      split; [cbn; rewrite H3, H2; exact J1|]. split; [cbn; rewrite H3, H2; exact I1|].
      split. { intros C0 M0. destruct (Z1 C0) as (n & r & -> & Nz). exists n. eexists. split; [reflexivity|exact Nz]. }
      split; [|split].
      * intros rest. rewrite <- !app_assoc. rewrite K1. rewrite <- D1 at 1. rewrite K2, K3. cbn [app map step_of marks]. rewrite R. cbn. rewrite D3. reflexivity.
      * intros rest H. rewrite <- !app_assoc. apply S1, S2, S3. cbn. exact H.
      * intros rest H. rewrite <- !app_assoc. apply T1, T2, T3. cbn. exact H.
    + (* G85 *)
      apply Forall_cons_iff in G as [[Gax Gay] G]. apply Forall_inv in G as [Gbx Gby].
      destruct (drill_mode_spec se c1 _ p act V1 L1) as (n2 & [B2 O2] & V2 & L2 & D2 & M2 & P2 & H2 & C2 & Z2 & K2 & S2 & T2). set (c2 := if o_slot_mode c1 then start_drill_mode c1 else c1) in *. clearbody c2.
      eexists. exists (n1 ++ n2 ++ [ESlot (Some (fst a)) (Some (snd a)) (Some (fst b)) (Some (snd b))]), Holing. split; [reflexivity|].
      split; [split; [cbn; rewrite B2, B1, <- !app_assoc; reflexivity|apply Forall_app; split; [exact O1|apply Forall_app; split; [exact O2|constructor; [cbn; auto|constructor]]]]|].
      destruct V2 as [IC IP IA ID IH]. split; [constructor; cbn; auto|]. split; [exact L2|]. split; [reflexivity|]. split; [cbn; destruct (o_cur c2); [discriminate|discriminate IC]|].
      split; [cbn; rewrite H2; exact J1|]. split; [cbn; rewrite H2; exact I1|].
      split. { intros C0 M0. destruct (Z1 C0) as (n & r & -> & Nz). exists n. eexists. split; [reflexivity|exact Nz]. }
      split; [|split].
      * intros rest. rewrite <- !app_assoc. rewrite K1. rewrite D1 in K2. rewrite K2. cbn [app map step_of marks]. unfold reach, put. destruct a, b. cbn. rewrite D2. reflexivity.
      * intros rest H. rewrite <- !app_assoc. apply S1, S2. cbn. auto.
      * intros rest H. rewrite <- !app_assoc. apply T1, T2. cbn. repeat split; auto; discriminate.
Qed.
End Run.

(** ** All primitives *)
Section All.
Variables (i d : nat) (s : list tool).
Definition expects (p : dprim) (x : Z * mark) : Prop := exists l t, stands_for p = Some (l, snd x) /\ nth_error s l = Some t /\ fst x = t_num t.
Definition at_pos (o : option point) : opoint := match o with Some q => (Some (fst q), Some (snd q)) | None => (None, None) end.
Lemma prims_spec se ps : forall c cur p act pos, inv s c cur p act -> listing i d s se c -> Forall (writable i d s) ps -> moving pos ps -> o_pos c = at_pos pos ->
  exists c' new xs cur' p' act', render_prims false s c ps = Ok c' /\ adds i d c c' new /\ inv s c' cur' p' act' /\ listing i d s se c' /\ Forall2 expects ps xs /\
    incl (o_handled c) (o_handled c') /\ (forall x l m, In x ps -> stands_for x = Some (l, m) -> In l (o_handled c')) /\
    (o_cur c = None -> o_slot_mode c = false -> new = [] \/ exists n r, new = ESel n None :: r /\ n <> 0%Z) /\
    (forall rest, marks cur false p act (o_down c) (map step_of (new ++ rest)) = xs ++ marks cur' false p' act' (o_down c') (map step_of rest)) /\
    (forall rest, sensible act' (map step_of rest) -> sensible act (map step_of (new ++ rest))) /\
    (forall rest, supported false (map step_of rest) -> supported false (map step_of (new ++ rest))).
Proof.
  induction ps as [|x ps IH]; intros c cur p act pos IV L W M P.
  - exists c, [], [], cur, p, act. split; [reflexivity|]. split; [split; [now rewrite app_nil_r|constructor]|]. split; [exact IV|]. split; [exact L|]. split; [constructor|]. split; [apply incl_refl|].
    split; [intros ? ? ? []|]. split; [now left|]. repeat split; auto.
  - apply Forall_cons_iff in W as [(l & m & t & SF & E & Wt & G) W]. cbn [moving] in M. rewrite SF in M. destruct M as [M1 M].
    destruct (prim_spec i d s se c cur p act x l m t IV L SF E Wt G) as (c1 & n1 & act1 & R1 & [B1 O1] & V1 & L1 & P1 & C1 & J1 & I1 & Z1 & K1 & S1 & T1).
    { destruct m; auto. rewrite P. destruct pos as [[px py]|]; cbn; [|discriminate]. intros X. injection X as X1 X2. apply M1. destruct p0. cbn in *. congruence. }
    destruct (IH c1 (Some (t_num t)) (last_end m) act1 (Some (last_end m)) V1 L1 W M P1) as (c2 & n2 & xs & cur2 & p2 & act2 & R2 & [B2 O2] & V2 & L2 & X2 & J2 & I2 & _ & K2 & S2 & T2).
    exists c2, (n1 ++ n2), ((t_num t, m) :: xs), cur2, p2, act2. cbn [render_prims]. rewrite R1. cbn [bind]. split; [exact R2|].
    split; [split; [rewrite B2, B1, app_assoc; reflexivity|apply Forall_app; split; assumption]|]. split; [exact V2|]. split; [exact L2|].
    split; [constructor; [exists l, t; auto|exact X2]|]. split; [eapply incl_tran; eassumption|].
    split. { intros y k m' [<-|Iy] Sy; [|eapply I2; eauto]. rewrite SF in Sy. injection Sy as <- _. apply J2, I1. }
    split. { intros C0 M0. right. destruct (Z1 C0 M0) as (n & r & -> & Nz). exists n. eexists. split; [reflexivity|exact Nz]. }
    split; [|split].
    + intros rest. rewrite <- app_assoc, K1, K2. reflexivity.
    + intros rest H. rewrite <- app_assoc. apply S1, S2, H.
    + intros rest H. rewrite <- app_assoc. apply T1, T2, H.
Qed.
End All.
Lemma number_shown n : number (show_int (Z.of_nat n)) (Z.of_nat n).
Proof.
  unfold show_int. destruct (Z.ltb_spec (Z.of_nat n) 0); [lia|]. assert (digit_string (show_nat (Z.of_nat n))) as D by (apply digit_string_iff, show_nat_digits).
  split; [exact D|]. split; [apply show_nat_nonempty|]. rewrite int_of_dval by exact D. apply dval_show_nat. lia.
Qed.
Lemma concat_single {A} (l : list A) : List.concat (map (fun t => [t]) l) = l.
Proof. induction l as [|x l IH]; [reflexivity|]. cbn. now rewrite IH. Qed.
Lemma near_opt_refl' a b c : a = b -> near_opt c a -> near_opt c b.
Proof. now intros ->. Qed.
Lemma round_trip hs i d se s ps se' : usable_format i d -> xs_format se = (i, d) -> xs_notation se = Absolute ->
  numbered s -> Forall (writable i d s) ps -> moving None ps ->
  exists c text f, render_all false se s ps = Ok c /\ out_text se s c = Ok text /\ parse_raw hs se' [] text = Ok f /\
    Forall2 (made_as s (xf_store f)) (xf_hits f) ps /\ xs_units (xf_set f) = xs_units se.
Proof.
  intros U F NA NU W M. unfold render_all, new_ctx. rewrite NA. cbn [bind].
  set (c0 := mkOctx _ _ _ _ _ _ _).
  assert (V0 : inv s c0 None (0, 0) Holing) by (constructor; cbn; auto).
  assert (L0 : listing i d s se c0) by (split; [reflexivity|split; constructor]).
  destruct (prims_spec i d s se ps c0 None (0, 0) Holing None V0 L0 W M eq_refl) as (c & new & xs & cur & p & act & R & [B O] & V & (LH & LN & LV) & X & _ & IH & TZ & K & S & Sp).
  rewrite R. exists c.
  set (ends := if o_down c then [ERetractC; ERetract] else []).
  assert (OB : Forall (ok_stmt i d) (o_body c ++ ends)).
  { apply Forall_app. split; [rewrite B; cbn; constructor; [exact I|exact O]|]. unfold ends. destruct (o_down c); repeat constructor. }
  destruct (body_expresses i d se s (xs_units se) _ U F OB) as (bl & WB & XB).
  (* the tools *)
  set (locs := rev (o_handled c)).
  assert (LV' : Forall (fun l => exists t, nth_error s l = Some t /\ writable_tool i d t) locs) by (apply Forall_rev; exact LV).
  assert (LN' : NoDup locs) by (apply NoDup_rev; exact LN).
  assert (TS : exists ts dl, Forall2 (fun l t => nth_error s l = Some t) locs ts /\ mapM (fun e => write_stmt se s (e, xs_units se)) (map ETool locs) = Ok dl /\
    header i d (xs_zeros se) (map (fun t => mkDef (t_num t) (tool_params t)) ts) [] dl).
  { clear - LV' U F. induction LV' as [|l locs (t & E & Wt) _ (ts & dl & T1 & T2 & T3)]; [exists [], []; repeat split; constructor|].
    destruct (write_tool_defines i d se t U F Wt) as (line & WL & D). exists (t :: ts), (line :: dl). split; [now constructor|]. cbn [map mapM write_stmt fst]. unfold tget. rewrite E, WL. cbn [bind].
    rewrite T2. split; [reflexivity|]. now constructor. }
  destruct TS as (ts & dl & TS & WD & HD).
  assert (NT : NoDup (map t_num ts)).
  { clear - TS LN' NU. induction TS as [|l t locs ts E TS IH]; [constructor|]. apply NoDup_cons_iff in LN' as [N1 N2]. cbn. constructor; [|now apply IH]. intros I. apply N1.
    clear - TS I E NU. induction TS as [|k u locs ts E' _ IH]; [destruct I|]. destruct I as [I|I]; [left; eapply NU; eauto|right; auto]. }
  set (defs := map (fun t => mkDef (t_num t) (tool_params t)) ts) in *.
  destruct (C114_lemma hs se' [] [(i, d)] [T ";FILE_FORMAT=" ++ show_int (Z.of_nat i) ++ T ":" ++ show_int (Z.of_nat d)] (xs_units se) (xs_zeros se) None [] i d defs [] dl (T "%")
    (map step_of (o_body c ++ ends)) (map (fun t => [t]) bl) [T "M30"] [nl]) as (f & PR & MK & HU & _).
  { now left. } { apply opening_format; [apply number_shown|apply number_shown|constructor]. } { constructor. } { reflexivity. } { now apply usable_readable. } { exact HD. } { now left. } { exact XB. } { now right. } { now left. }
  { rewrite B. cbn [o_body c0 app map step_of tooled]. destruct (TZ eq_refl eq_refl) as [->|(n & r & -> & Nz)]; [unfold ends; destruct (o_down c); exact I|]. cbn. now left. }
  { rewrite B. rewrite <- app_assoc. cbn [o_body c0 app map step_of sensible]. apply S. unfold ends. destruct (o_down c); exact I. }
  { rewrite B. rewrite <- app_assoc. cbn [o_body c0 app map step_of supported]. apply Sp. unfold ends. destruct (o_down c); exact I. }
  eexists. exists f. split; [reflexivity|]. split.
  { unfold out_text, statements, get_end. rewrite LH. fold ends. fold locs. cbn [app mapM]. cbn [write_stmt fst snd bind].
    rewrite mapM_app, WD. cbn [bind]. cbn [app mapM write_stmt fst bind]. rewrite app_assoc, mapM_app, WB. cbn [bind mapM write_stmt fst write_default app]. reflexivity. }
  split.
  { rewrite <- PR. f_equal. unfold join_lines, file_text. f_equal. f_equal. rewrite concat_single. unfold format_comment. rewrite F. cbn [fst snd].
    unfold unit_text, zeros_text. destruct (xs_units se), (xs_zeros se); reflexivity. }
  split; [|exact HU].
  (* the marks *)
  assert (MM : marks None (start_inc se') (0, 0) Holing false (map step_of (o_body c ++ ends)) = xs).
  { rewrite B. rewrite <- app_assoc. cbn [o_body c0 app map step_of marks]. change (marks None false (0, 0) Holing false) with (marks None false (0, 0) Holing (o_down c0)). rewrite (K ends). rewrite <- (app_nil_r xs) at 2. f_equal. unfold ends. destruct (o_down c); reflexivity. }
  rewrite MM in MK.
  assert (DI : forall l t, In l locs -> nth_error s l = Some t -> wanted (xs_units se) defs [] [] (t_num t) = t_diam t).
  { intros l t I E. assert (In t ts) as It.
    { clear - TS I E. induction TS as [|k u locs ts E' _ IH]; [destruct I|]. destruct I as [->|I]; [left; congruence|right; auto]. }
    unfold wanted, diameter, defs. rewrite (defined_tools ts t NT It). cbn [d_params]. apply tool_params_c. }
  assert (IH' : Forall (fun x => forall l m, stands_for x = Some (l, m) -> In l locs) ps).
  { apply Forall_forall. intros x Ix l m Sx. unfold locs. rewrite <- in_rev. eapply IH; eauto. }
  clear - X MK DI IH'. revert MK. generalize (xf_hits f) as hits. induction X as [|x [n m] ps xs (l & t & SF & E & En) X IH]; intros hits MK.
  - inversion MK. constructor.
  - inversion MK as [|h ? hs0 ? (t' & T1 & T2 & T3 & T4) MK']; subst. apply Forall_cons_iff in IH' as [I1 I2]. constructor; [|now apply IH].
    cbn [fst snd] in *. subst n. exists l, m, t, t'. split; [exact SF|]. split; [exact E|]. split; [exact T1|]. split; [exact T2|]. split; [|exact T4].
    rewrite (DI l t (I1 l m SF) E) in T3. exact T3.
Qed.
