(** Proofs about drill files without units. *)
From Verif Require Import PyBase QcLib NumModel NumSpec NumProofs GerberText ExcellonModel ExcellonFile ExcellonSpec ExcellonProofs ExcellonRun.
Open Scope list_scope.
Open Scope Qc_scope.

Lemma unstated holesize se u z i d defs dl e prog body tail eol :
  xs_format se = (i, d) -> xs_units se = u -> xs_zeros se = z -> readable i d ->
  Forall2 (defines i d z) defs dl -> (e = T "%" \/ e = T "M95") -> Forall2 (says i d z) prog body ->
  (tail = [] \/ tail = [T "M30"]) -> line_end eol -> tool_known (is_defined 1 defs) prog ->
  exists f, parse_raw holesize se [] (file_text eol (T "M48" :: dl ++ e :: body ++ tail)) = Ok f /\
    map (hole_view (xf_store f)) (xf_hits f) =
      map (fun h => Some (fst h, diameter defs u (fst h), snd h)) (holes None (start_inc se) (0, 0) prog) /\
    xs_units (xf_set f) = u /\ xs_format (xf_set f) = (i, d) /\ xs_zeros (xf_set f) = z.
Proof.
  intros Ei Eu0 Ez0 Hr Fd He Fp Htl Eo K. unfold parse_raw. rewrite lines_of_file; [|exact Eo|].
  2: { constructor; [repeat constructor|].
       apply Forall_app; split; [eapply Forall2_right; [|exact Fd]; intros; eapply defines_nospace; eassumption|].
       constructor; [destruct He as [->| ->]; repeat constructor|].
       apply Forall_app; split; [eapply Forall2_right; [|exact Fp]; intros; eapply says_nospace; eassumption|].
       destruct Htl as [->| ->]; repeat constructor. }
  set (inc := start_inc se). rewrite <- app_comm_cons. cbn [parse_lines]. rewrite dispatch_m48 by reflexivity. cbn [bind].
  match goal with |- context [parse_lines holesize ?s _] => set (s0 := s) end.
  assert (H0 : hsim i d z u inc [] s0).
  { unfold s0. assert (Wx := x_start_wf se []). 
    assert (D0 : forall fm, x_format fm = [Z.of_nat i; Z.of_nat d] -> x_zeros fm = z -> x_units fm = u -> x_prev fm = [] -> x_state fm = SHeader ->
      x_notation fm = x_notation (x_start se []) -> x_pos fm = (0, 0) -> x_down fm = false -> same_core (x_start se []) fm -> hsim i d z u inc [] fm).
    { intros fm F1 F2 F3 F4 F5 F6 F7 F8 C. assert (W : wf fm) by (eapply ev_wf with (holesize := holesize) (f := false); [apply ev_same; exact C|exact Wx]).
      destruct C as (C1 & C2 & C3 & C4 & C5 & C6). cbn in C1, C2, C3, C4, C5, C6. constructor; auto.
      - rewrite F6. cbn. unfold inc, start_inc. destruct (xs_notation se); reflexivity.
      - intros n. unfold dv, lookup. rewrite <- C2, <- C3, <- C4. cbn. rewrite F3. unfold default_diam, metric, zq. destruct u; f_equal.
      - intros n. unfold lookup. rewrite <- C2, <- C3, <- C4. cbn. split; reflexivity. }
    apply D0; try reflexivity; [cbn; now rewrite Ei|exact Ez0|exact Eu0|repeat split]. }
  rewrite parse_lines_app. change ((dl ++ e :: body ++ tail) ++ [[]]) with ((dl ++ e :: body ++ tail) ++ [[]]).
  replace ((dl ++ e :: body ++ tail)) with (dl ++ (e :: body ++ tail)) by reflexivity. rewrite parse_lines_app.
  destruct (hsim_run holesize i d z Hr u inc defs dl [] s0 H0 Fd) as (s1 & E1 & S1). rewrite E1. cbn [bind parse_lines]. cbn [app] in S1.
  assert (E2 : exists s2, parse_line holesize s1 e = Ok s2 /\ sim i d z u (diameter defs u) (is_defined 1 defs) SDrill false s2 None inc (0, 0) /\ x_hits s2 = []).
  { assert (G : forall x, sim i d z u (diameter defs u) (is_defined 1 defs) SDrill false (with_state SDrill (add_stmt x s1)) None inc (0, 0)).
    { intros x. assert (W : wf (with_state SDrill (add_stmt x s1))) by (eapply (ev_wf holesize false s1); [apply ev_same; repeat split|apply S1]).
      destruct S1. constructor; auto. unfold is_defined. intros O X. change (lookup s1 1 = None) in X. apply h_def in X. rewrite X in O. discriminate. }
    destruct He as [->| ->]; [rewrite dispatch_rewind by apply S1|rewrite dispatch_m95 by apply S1]; eexists; (split; [reflexivity|]); (split; [apply G|]); apply S1. }
  destruct E2 as (s2 & E2 & S2 & H2). rewrite E2. cbn [bind]. rewrite parse_lines_app.
  destruct (sim_run holesize i d z u (diameter defs u) (is_defined 1 defs) SDrill false Hr ltac:(discriminate) prog body s2 None inc (0, 0) S2 Fp K eq_refl) as (s3 & new & [[cur' inc'] p'] & E3 & S3 & H3 & V3).
  rewrite E3. cbn [bind].
  destruct (sim_settings _ _ _ _ _ _ _ _ _ _ _ _ S3) as (se3 & Es & Ef & Ez & Eu).
  assert (E4 : exists s4, parse_lines holesize s3 tail = Ok s4 /\ x_hits s4 = x_hits s3 /\ x_store s4 = x_store s3 /\ settings_of s4 = settings_of s3 /\ x_prev s4 = []).
  { destruct Htl as [->| ->]; [exists s3; cbn; repeat split; auto; apply S3|]. cbn [parse_lines].
    rewrite (dispatch_m30 _ _ se3) by (auto; apply S3). eexists. cbn [bind]. split; [reflexivity|]. repeat split. apply S3. }
  destruct E4 as (s4 & E4 & H4 & St4 & Se4 & P4). rewrite E4. cbn [bind]. rewrite dispatch_blank by exact P4. cbn [bind].
  rewrite Se4, Es. cbn [bind]. eexists. split; [reflexivity|]. cbn. rewrite H4, St4, H3, H2. cbn [app].
  split; [|auto]. clear - V3. induction V3 as [|h x hs xs V _ IH]; [reflexivity|]. cbn [map]. now rewrite V, IH.
Qed.
