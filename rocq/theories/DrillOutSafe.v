(** The programs written raise the tool when they have to, and define the tools they use. *)
From Verif Require Import PyBase QcLib NumModel GerberText ExcellonModel ExcellonFile ExcellonSpec RoutSpec DrillOutModel DrillOutSpec.
Open Scope list_scope.
Open Scope Qc_scope.

(** ** The height of the tool *)
Definition guarded (change : bool) (c c' : octx) : Prop :=
  exists new, o_body c' = o_body c ++ new /\ forall rest, safe change (o_down c') rest -> safe change (o_down c) (new ++ rest).
Lemma guarded_trans change a b c : guarded change a b -> guarded change b c -> guarded change a c.
Proof.
  intros (n1 & B1 & S1) (n2 & B2 & S2). exists (n1 ++ n2). split; [rewrite B2, B1, app_assoc; reflexivity|]. intros rest H. rewrite <- app_assoc. apply S1, S2, H.
Qed.
Lemma guarded_refl change c : guarded change c c.
Proof. exists []. split; [now rewrite app_nil_r|auto]. Qed.
Lemma use_tool_guarded change py3 s l c c' : use_tool py3 s l c = Ok c' -> (change = true -> o_down c = true -> o_cur c = Some l) ->
  guarded change c c' /\ o_down c' = o_down c /\ o_slot_mode c' = o_slot_mode c /\ o_pos c' = o_pos c /\ o_cur c' = Some l.
Proof.
  intros H CH. unfold use_tool in H. destruct (tool_at s (Some l)) as [t|]; [|discriminate]. cbn [bind] in H. destruct py3; [discriminate|]. cbv zeta in H. apply ok_inj in H. subst c'.
  set (c1 := if existsb (Nat.eqb l) (o_handled c) then c else _).
  assert (S1 : o_body c1 = o_body c /\ o_cur c1 = o_cur c /\ o_down c1 = o_down c /\ o_slot_mode c1 = o_slot_mode c /\ o_pos c1 = o_pos c).
  { unfold c1. destruct (existsb (Nat.eqb l) (o_handled c)); repeat split. }
  destruct S1 as (B1 & C1 & D1 & M1 & P1). clearbody c1.
  destruct (match o_cur c1 with Some k => Nat.eqb k l | None => false end) eqn:Q.
  - destruct (o_cur c1) as [k|] eqn:K; [|discriminate]. apply Nat.eqb_eq in Q. subst k. split; [|auto]. exists []. rewrite app_nil_r, D1. auto.
  - cbn. split; [|auto]. exists [ESel (t_num t) None]. cbn. rewrite B1, D1. split; [reflexivity|]. intros rest H. split; [|exact H].
    intros E. destruct (o_down c) eqn:D; [|reflexivity]. exfalso. specialize (CH E eq_refl). rewrite C1, CH, Nat.eqb_refl in Q. discriminate.
Qed.
Lemma drill_mode_guarded change c : (o_down c = true -> o_slot_mode c = true) -> let c' := if o_slot_mode c then start_drill_mode c else c in
  guarded change c c' /\ o_down c' = false /\ o_slot_mode c' = false /\ o_cur c' = o_cur c.
Proof.
  intros ID. cbn zeta. destruct (o_slot_mode c) eqn:M.
  - unfold start_drill_mode. destruct (o_down c) eqn:D; cbn.
    + split; [|auto]. exists [ERetractC; ERetract; EDrill]. cbn. rewrite <- app_assoc. split; [reflexivity|]. auto.
    + split; [|auto]. exists [EDrill]. cbn. rewrite D. split; [reflexivity|]. auto.
  - destruct (o_down c) eqn:D; [discriminate (ID eq_refl)|]. split; [apply guarded_refl|auto].
Qed.
Lemma emit_guarded change c c' e : o_body c' = o_body c ++ [e] -> o_down c' = o_down c ->
  match e with ECoord (Some Linear) _ _ => o_down c = true | ECoord _ _ _ | ESlot _ _ _ _ => o_down c = false | _ => False end -> guarded change c c'.
Proof.
  intros B D H. exists [e]. split; [exact B|]. intros rest R. rewrite D in R. destruct e as [| | | |[[|]|]| | | | | | | | | | | | | | | | | | | | | |]; try contradiction; cbn; auto.
Qed.
Lemma prim_guarded change py3 s c p c' : render_prim py3 s c p = Ok c' -> (o_down c = true -> o_slot_mode c = true) ->
  (change = true -> o_down c = true -> forall l m, stands_for p = Some (l, m) -> o_cur c = Some l) ->
  guarded change c c' /\ (o_down c' = true -> o_slot_mode c' = true) /\ exists l m, stands_for p = Some (l, m) /\ o_cur c' = Some l.
Proof.
  intros H ID CH. destruct p as [q h|a b h|]; [| |discriminate]; cbn [render_prim] in H.
  - unfold render_drill in H. destruct (drill_mode_guarded change c ID) as (G1 & D1 & M1 & C1). set (c1 := if o_slot_mode c then start_drill_mode c else c) in *. clearbody c1.
    destruct h as [l|]; [|discriminate]. destruct (use_tool py3 s l c1) as [c2|] eqn:U; [|discriminate]. cbn [bind] in H.
    destruct (use_tool_guarded change _ _ _ _ _ U) as (G2 & D2 & M2 & P2 & C2); [intros; congruence|]. destruct (simplify q (o_pos c2)) as [x y]. apply ok_inj in H. subst c'.
    split; [|split; [cbn; congruence|exists l, (Hole q); split; [reflexivity|exact C2]]].
    eapply guarded_trans; [exact G1|]. eapply guarded_trans; [exact G2|]. apply (emit_guarded change c2 _ (ECoord None x y)); [reflexivity|reflexivity|congruence].
  - unfold render_slot in H. destruct h as [[l r]|]; [|discriminate]. destruct (use_tool py3 s l c) as [c1|] eqn:U; [|discriminate]. cbn [bind] in H.
    destruct (use_tool_guarded change _ _ _ _ _ U) as (G1 & D1 & M1 & P1 & C1); [intros E1 E2; destruct r; eapply CH; eauto; reflexivity|]. destruct r.
    + set (c2 := if same_place a (o_pos c1) then c1 else _) in H.
      assert (S2 : guarded change c1 c2 /\ o_cur c2 = o_cur c1).
      { unfold c2. destruct (same_place a (o_pos c1)); [split; [apply guarded_refl|reflexivity]|]. destruct (o_down c1) eqn:D; cbn [set_down emit o_pos]; destruct (simplify a (o_pos c1)) as [x y]; split; try reflexivity.
        - exists [ERetractC; ECoord (Some Rout) x y]. split; [cbn; rewrite <- app_assoc; reflexivity|]. intros rest R. cbn. split; [reflexivity|exact R].
        - apply (emit_guarded change c1 _ (ECoord (Some Rout) x y)); [reflexivity|reflexivity|exact D]. }
      destruct S2 as (G2 & C2). clearbody c2. set (c3 := if o_down c2 then c2 else _) in H.
      assert (S3 : guarded change c2 c3 /\ o_cur c3 = o_cur c2 /\ o_down c3 = true).
      { unfold c3. destruct (o_down c2) eqn:D; [split; [apply guarded_refl|auto]|]. split; [|auto]. exists [EZRout]. split; [reflexivity|]. intros rest R. exact R. }
      destruct S3 as (G3 & C3 & D3). clearbody c3. destruct (simplify b (o_pos c3)) as [x y]. apply ok_inj in H. subst c'.
      split; [|split; [reflexivity|exists l, (Milled a b); split; [reflexivity|cbn; congruence]]].
      eapply guarded_trans; [exact G1|]. eapply guarded_trans; [exact G2|]. eapply guarded_trans; [exact G3|].
      apply (emit_guarded change c3 _ (ECoord (Some Linear) x y)); [reflexivity|reflexivity|exact D3].
    + destruct (drill_mode_guarded change c1) as (G2 & D2 & M2 & C2); [rewrite D1, M1; exact ID|]. set (c2 := if o_slot_mode c1 then start_drill_mode c1 else c1) in *. clearbody c2.
      apply ok_inj in H. subst c'. split; [|split; [cbn; congruence|exists l, (Slotted a b); split; [reflexivity|cbn; congruence]]].
      eapply guarded_trans; [exact G1|]. eapply guarded_trans; [exact G2|]. eapply emit_guarded; [reflexivity|reflexivity|cbn; congruence].
Qed.
Lemma prims_guarded change py3 s ps : forall c c', render_prims py3 s c ps = Ok c' -> (o_down c = true -> o_slot_mode c = true) ->
  (change = true -> one_tool ps /\ (o_down c = true -> forall p l m, In p ps -> stands_for p = Some (l, m) -> o_cur c = Some l)) ->
  guarded change c c'.
Proof.
  induction ps as [|p ps IH]; intros c c' H ID CH; cbn [render_prims] in H; [apply ok_inj in H; subst; apply guarded_refl|].
  destruct (render_prim py3 s c p) as [c1|] eqn:R; [|discriminate]. cbn [bind] in H.
  destruct (prim_guarded change py3 s c p c1 R ID) as (G1 & ID1 & l & m & SF & C1).
  { intros E D k n SK. destruct (CH E) as [_ X]. eapply X; eauto. now left. }
  eapply guarded_trans; [exact G1|]. apply IH; [exact H|exact ID1|]. intros E. destruct (CH E) as [OT _]. split.
  - intros x y k j a b Ix Iy. apply OT; now right.
  - intros _ q k n Iq Sq. rewrite C1. f_equal. eapply OT; [now left|right; exact Iq|exact SF|exact Sq].
Qed.

(** ** The header *)
Definition head_stmt (e : estmt) : Prop := match e with EUnit _ _ _ | ETool _ => True | _ => False end.
Record tidy (c : octx) : Prop := {
  tidy_head : Forall head_stmt (o_header c);
  tidy_once : NoDup (defined_in (o_header c));
  tidy_handled : forall l, In l (o_handled c) <-> In l (defined_in (o_header c));
  tidy_body : defined_in (o_body c) = [] }.
Lemma defined_in_app a b : defined_in (a ++ b) = defined_in a ++ defined_in b.
Proof. unfold defined_in. apply flat_map_app. Qed.
Lemma use_tool_tidy py3 s l c c' : use_tool py3 s l c = Ok c' -> tidy c -> tidy c' /\ (forall k, In k (o_handled c') <-> k = l \/ In k (o_handled c)).
Proof.
  intros H [TH TO TI TB]. unfold use_tool in H. destruct (tool_at s (Some l)) as [t|]; [|discriminate]. cbn [bind] in H. destruct py3; [discriminate|]. cbv zeta in H. apply ok_inj in H. subst c'.
  set (c1 := if existsb (Nat.eqb l) (o_handled c) then c else _).
  assert (S1 : tidy c1 /\ (forall k, In k (o_handled c1) <-> k = l \/ In k (o_handled c))).
  { unfold c1. destruct (existsb (Nat.eqb l) (o_handled c)) eqn:X.
    - apply existsb_exists in X as (k & I & K). apply Nat.eqb_eq in K. subst k. split; [now constructor|]. intros k. split; [auto|]. intros [->|H]; assumption.
    - split; [|intros k; cbn; split; intros [H|H]; auto].
      assert (N : ~ In l (o_handled c)) by (intros I; assert (existsb (Nat.eqb l) (o_handled c) = true) by (apply existsb_exists; exists l; split; [exact I|apply Nat.eqb_refl]); congruence).
      constructor; cbn [o_header o_handled o_body].
      + apply Forall_app. split; [exact TH|constructor; [exact I|constructor]].
      + rewrite defined_in_app. cbn. 
        assert (Q : forall A (x : A) u, NoDup u -> ~ In x u -> NoDup (u ++ [x])).
        { intros A x u NU NI. induction NU as [|y u NY NU IHu]; cbn; [constructor; [intros []|constructor]|]. constructor.
          - rewrite in_app_iff. intros [Z|[Z|[]]]; [contradiction|]. subst y. apply NI. now left.
          - apply IHu. intros Z. apply NI. now right. }
        apply Q; [exact TO|]. now rewrite <- TI.
      + intros k. rewrite defined_in_app, in_app_iff, <- TI. cbn. tauto.
      + exact TB. }
  destruct S1 as ([A1 A2 A3 A4] & K1). clearbody c1.
  destruct (match o_cur c1 with Some k => Nat.eqb k l | None => false end); [split; [now constructor|exact K1]|]. cbn. split; [|exact K1]. constructor; cbn; auto. rewrite defined_in_app, A4. reflexivity.
Qed.
Lemma tidy_emit c c' l : tidy c -> o_header c' = o_header c -> o_handled c' = o_handled c -> o_body c' = o_body c ++ l -> defined_in l = [] -> tidy c'.
Proof. intros [A B C D] H1 H2 H3 H4. constructor; rewrite ?H1, ?H2, ?H3; auto. rewrite defined_in_app, D, H4. reflexivity. Qed.
Lemma drill_mode_tidy c : tidy c -> tidy (if o_slot_mode c then start_drill_mode c else c) /\ o_handled (if o_slot_mode c then start_drill_mode c else c) = o_handled c.
Proof.
  intros T. destruct (o_slot_mode c); [|auto]. unfold start_drill_mode. destruct (o_down c); cbn; (split; [|reflexivity]).
  - apply (tidy_emit c _ [ERetractC; ERetract; EDrill] T); try reflexivity. cbn. now rewrite <- app_assoc.
  - apply (tidy_emit c _ [EDrill] T); reflexivity.
Qed.
Lemma prim_tidy py3 s c p c' : render_prim py3 s c p = Ok c' -> tidy c ->
  tidy c' /\ exists l m, stands_for p = Some (l, m) /\ forall k, In k (o_handled c') <-> k = l \/ In k (o_handled c).
Proof.
  intros H TD. destruct p as [q h|a b h|]; [| |discriminate]; cbn [render_prim] in H.
  - unfold render_drill in H. destruct (drill_mode_tidy c TD) as [T1 H1]. set (c1 := if o_slot_mode c then start_drill_mode c else c) in *. clearbody c1.
    destruct h as [l|]; [|discriminate]. destruct (use_tool py3 s l c1) as [c2|] eqn:U; [|discriminate]. cbn [bind] in H. destruct (use_tool_tidy _ _ _ _ _ U T1) as [T2 H2].
    destruct (simplify q (o_pos c2)) as [x y]. apply ok_inj in H. subst c'. split; [apply (tidy_emit c2 _ [ECoord None x y] T2); reflexivity|].
    exists l, (Hole q). split; [reflexivity|]. cbn. now rewrite <- H1.
  - unfold render_slot in H. destruct h as [[l r]|]; [|discriminate]. destruct (use_tool py3 s l c) as [c1|] eqn:U; [|discriminate]. cbn [bind] in H. destruct (use_tool_tidy _ _ _ _ _ U TD) as [T1 H1]. destruct r.
    + set (c2 := if same_place a (o_pos c1) then c1 else _) in H.
      assert (S2 : tidy c2 /\ o_handled c2 = o_handled c1).
      { unfold c2. destruct (same_place a (o_pos c1)); [auto|]. destruct (o_down c1); cbn [set_down emit o_pos]; destruct (simplify a (o_pos c1)) as [x y]; (split; [|reflexivity]).
        - apply (tidy_emit c1 _ [ERetractC; ECoord (Some Rout) x y] T1); try reflexivity. cbn. now rewrite <- app_assoc.
        - apply (tidy_emit c1 _ [ECoord (Some Rout) x y] T1); reflexivity. }
      destruct S2 as [T2 H2]. clearbody c2. set (c3 := if o_down c2 then c2 else _) in H.
      assert (S3 : tidy c3 /\ o_handled c3 = o_handled c2) by (unfold c3; destruct (o_down c2); [auto|split; [apply (tidy_emit c2 _ [EZRout] T2); reflexivity|reflexivity]]).
      destruct S3 as [T3 H3]. clearbody c3. destruct (simplify b (o_pos c3)) as [x y]. apply ok_inj in H. subst c'.
      split; [apply (tidy_emit c3 _ [ECoord (Some Linear) x y] T3); reflexivity|]. exists l, (Milled a b). split; [reflexivity|]. cbn. now rewrite H3, H2.
    + destruct (drill_mode_tidy c1 T1) as [T2 H2]. set (c2 := if o_slot_mode c1 then start_drill_mode c1 else c1) in *. clearbody c2. apply ok_inj in H. subst c'.
      split; [eapply tidy_emit; [exact T2|reflexivity|reflexivity|reflexivity|reflexivity]|]. exists l, (Slotted a b). split; [reflexivity|]. cbn. now rewrite H2.
Qed.
Lemma prims_tidy py3 s ps : forall c c', render_prims py3 s c ps = Ok c' -> tidy c ->
  tidy c' /\ forall k, In k (o_handled c') <-> In k (o_handled c) \/ exists p m, In p ps /\ stands_for p = Some (k, m).
Proof.
  induction ps as [|p ps IH]; intros c c' H TD; cbn [render_prims] in H.
  - apply ok_inj in H. subst. split; [exact TD|]. intros k. split; [auto|]. intros [X|(p & m & [] & _)]. exact X.
  - destruct (render_prim py3 s c p) as [c1|] eqn:R; [|discriminate]. cbn [bind] in H. destruct (prim_tidy _ _ _ _ _ R TD) as (T1 & l & m & SF & H1). destruct (IH _ _ H T1) as [T2 H2].
    split; [exact T2|]. intros k. rewrite H2, H1. split.
    + intros [[->|X]|(q & n & I & S)]; [right; exists p, m; split; [now left|exact SF]|now left|right; exists q, n; split; [now right|exact S]].
    + intros [X|(q & n & [<-|I] & S)]; [auto|left; left; congruence|right; eauto].
Qed.
Lemma safe_head change low l rest : Forall head_stmt l -> safe change low rest -> safe change low (l ++ rest).
Proof. intros F S. induction F as [|e l H _ IH]; [exact S|]. destruct e; try contradiction; exact IH. Qed.
Lemma started se c0 : new_ctx se = Ok c0 -> tidy c0 /\ o_down c0 = false /\ o_body c0 = [EAbs] /\ o_handled c0 = [] /\ o_cur c0 = None.
Proof.
  unfold new_ctx. destruct (xs_notation se); [|discriminate]. intros H. apply ok_inj in H. subst c0. split; [|auto]. constructor; cbn; auto.
  - repeat constructor.
  - constructor.
  - tauto.
Qed.
Lemma always_safe change py3 se s ps c : render_all py3 se s ps = Ok c -> (change = true -> one_tool ps) -> safe change false (statements se c).
Proof.
  unfold render_all. intros H CH. destruct (new_ctx se) as [c0|] eqn:N; [|discriminate]. cbn [bind] in H. destruct (started se c0 N) as (T0 & D0 & B0 & _ & _).
  destruct (prims_tidy _ _ _ _ _ H T0) as [[TH _ _ _] _].
  assert (G : guarded change c0 c).
  { apply (prims_guarded change py3 s ps c0 c H); [congruence|]. intros E. split; [now apply CH|congruence]. }
  destruct G as (new & B & S). unfold statements. cbn [app safe]. apply safe_head; [exact TH|]. cbn [app safe]. rewrite B, B0. cbn [app safe]. rewrite D0 in S. apply S.
  unfold get_end. destruct (o_down c); cbn; auto.
Qed.
Lemma tools_defined py3 se s ps c : render_all py3 se s ps = Ok c ->
  NoDup (defined_in (statements se c)) /\ forall l, In l (defined_in (statements se c)) <-> exists p m, In p ps /\ stands_for p = Some (l, m).
Proof.
  unfold render_all. intros H. destruct (new_ctx se) as [c0|] eqn:N; [|discriminate]. cbn [bind] in H. destruct (started se c0 N) as (T0 & D0 & B0 & H0 & _).
  destruct (prims_tidy _ _ _ _ _ H T0) as [[TH TO TI TB] HH].
  assert (E : defined_in (statements se c) = defined_in (o_header c)).
  { unfold statements, get_end. rewrite !defined_in_app, TB. destruct (o_down c); cbn; now rewrite app_nil_r. }
  rewrite E. split; [exact TO|]. intros l. rewrite <- TI, HH, H0. split; [intros [[]|X]; exact X|auto].
Qed.
(** ** Files *)
Lemma file_fails py3 f : xf_hits f <> [] -> exists e, render_file py3 f = Err e.
Proof.
  intros N. unfold render_file. destruct (new_ctx (xf_set f)) as [c|e] eqn:NC; [|eexists; reflexivity]. cbn [bind]. destruct (bounding_box f); [|eexists; reflexivity]. cbn [bind].
  destruct (xf_hits f) as [|h hs]; [contradiction|]. cbn [mapM]. destruct (file_prim (xf_store f) h) as [q|e] eqn:FP; [|eexists; reflexivity]. cbn [bind].
  destruct (mapM (file_prim (xf_store f)) hs) as [l|]; [|eexists; reflexivity]. cbn [bind render_prims].
  assert (E : render_prim py3 (xf_store f) c q = Err AttributeError).
  { unfold file_prim in FP. destruct (tool_at (xf_store f) (hit_tool h)); [|discriminate]. cbn [bind] in FP. destruct h as [o p|o [[?|] [?|]] [[?|] [?|]] r]; try discriminate; apply ok_inj in FP; subst q; reflexivity. }
  rewrite E. eexists. reflexivity.
Qed.
