(** The text of a drill file is the text of the file with rounded numbers. *)
From Coq Require Import Permutation.
From Verif Require Import NumModel FmtModel NumProofs FmtProofs DecimalProofs ExcellonMore RoundSpec RoundText DrillRoundSpec DrillRoundText.
Open Scope list_scope.
Open Scope Qc_scope.

Lemma readback_grid_value i d v : fits i d v -> grid_value i d (readback v d).
Proof. intros F. apply fits_scaled in F. destruct (readback_is_dec v d) as (k & E & A). exists k. rewrite E, grid_dec. split; [rewrite A; exact F|reflexivity]. Qed.
Definition ro (d : nat) (o : option Qc) : option Qc := option_map (fun v => readback v d) o.
Lemma ro_grid i d o : opt_in_range i d o -> grid_opt i d (ro d o).
Proof. destruct o as [v|]; cbn; [apply readback_grid_value|auto]. Qed.
Definition round_tool (d : nat) (t : tool) : tool :=
  mkTool (t_num t) (ro d (t_retract t)) (ro d (t_feed t)) (ro d (t_maxhit t)) (option_map (fun r => readback (r / zq 1000) d * zq 1000) (t_rpm t))
    (option_map (cut_diameter d) (t_diam t)) (ro d (t_depth t)) (t_plated t) (t_hits t) (t_set t).
Definition round_hit (d : nat) (h : hit) : hit :=
  match h with Hit o p => Hit o (readback (fst p) d, readback (snd p) d) | Slot o a b k => Slot o a b k end.
Definition round_file (d : nat) (f : xfile) : xfile := mkXfile (xf_set f) (xf_stmts f) (xf_tools f) (map (round_hit d) (xf_hits f)) (map (round_tool d) (xf_store f)).
Lemma k1000 : zq 1000 <> 0. Proof. apply zq_nonzero. lia. Qed.
Lemma div_back r : r * zq 1000 / zq 1000 = r. Proof. field. exact k1000. Qed.
Lemma write_value_rounded i d se v : usable_format i d -> xs_format se = (i, d) -> fits i d v -> write_value se (readback v d) = write_value se v.
Proof. intros U F H. unfold write_value. rewrite F. symmetry. now apply write_rounded. Qed.
Lemma field_rounded i d se c o : usable_format i d -> xs_format se = (i, d) -> opt_in_range i d o -> field se c (ro d o) = field se c o.
Proof. intros U F H. destruct o as [v|]; [|reflexivity]. cbn [ro option_map field]. now rewrite (write_value_rounded i). Qed.
Lemma half_ulp_small d : (1 <= d)%nat -> half_ulp d * zq 1000 <= Q2Qc 50.
Proof.
  intros H. apply (qc_mult_le_r _ _ _ (zq_p10_pos d)). replace (half_ulp d * zq 1000 * zq (p10 d)) with (half_ulp d * zq (p10 d) * zq 1000) by ring. rewrite half_ulp_scaled.
  replace (Q2Qc (1 # 2) * zq 1000) with (Q2Qc 50 * zq 10) by (apply qc_eq_iff; reflexivity). rewrite (Qcmult_comm (Q2Qc 50)), (Qcmult_comm (Q2Qc 50)). apply Qcmult_le_compat_r; [|discriminate].
  apply zq_le. change 10%Z with (p10 1). unfold p10. apply Z.pow_le_mono_r; lia.
Qed.
Lemma rpm_small i d r : usable_format i d -> r + Q2Qc 50 < Q2Qc 100000 -> readback (r / zq 1000) d * zq 1000 < zq 100000.
Proof.
  intros [_ D] H. pose proof (readback_close (r / zq 1000) d) as C. apply qabs_bounds in C as [C _].
  assert (P : 0 < zq 1000) by (rewrite <- zq_0; now apply zq_lt). pose proof (half_ulp_small d ltac:(lia)) as S.
  assert (X : readback (r / zq 1000) d * zq 1000 <= r + half_ulp d * zq 1000).
  { replace (r + half_ulp d * zq 1000) with ((r / zq 1000 + half_ulp d) * zq 1000) by (field; exact k1000). apply Qcmult_le_compat_r; [qclra|now apply Qclt_le_weak]. }
  change (zq 100000) with (Q2Qc 100000). qclra.
Qed.
Lemma rpm_small' r : r + Q2Qc 50 < Q2Qc 100000 -> r < zq 100000.
Proof. intros H. change (zq 100000) with (Q2Qc 100000). eapply Qclt_trans; [|exact H]. assert (0 < Q2Qc 50) by reflexivity. qclra. Qed.
Lemma round_tool_writable i d t : usable_format i d -> tool_in_range i d t -> writable_tool i d (round_tool d t).
Proof.
  intros U (N & A & B & C & D & R & V). split; [exact N|]. cbn [round_tool t_retract t_feed t_maxhit t_depth t_rpm t_diam]. repeat (split; [now apply ro_grid|]). split.
  - destruct (t_rpm t) as [r|]; cbn [option_map]; [|auto]. destruct R as [R1 R2]. split; [now apply (rpm_small i)|]. change (Q2Qc 1000) with (zq 1000) in *. rewrite div_back. now apply readback_grid_value.
  - destruct (t_diam t) as [v|]; cbn [option_map]; [|auto]. destruct U as [_ U]. now apply diameter_cut.
Qed.
Lemma round_tool_text i d se t : usable_format i d -> xs_format se = (i, d) -> tool_in_range i d t -> write_tool se (round_tool d t) = write_tool se t.
Proof.
  intros U F (N & A & B & C & D & R & V). unfold write_tool. cbn [round_tool t_num t_retract t_feed t_maxhit t_depth t_rpm t_diam].
  rewrite !(field_rounded i d) by assumption. 
  assert (E : match option_map (fun r => readback (r / zq 1000) d * zq 1000) (t_rpm t) with
          | None => Ok []
          | Some r => if qclt r (zq 100000) then do v <- write_value se (r / zq 1000); Ok ("S"%char :: v)
                      else Ok ("S"%char :: fmt_g 6 (r / zq 1000))
          end = match t_rpm t with
          | None => Ok []
          | Some r => if qclt r (zq 100000) then do v <- write_value se (r / zq 1000); Ok ("S"%char :: v)
                      else Ok ("S"%char :: fmt_g 6 (r / zq 1000))
          end).
  { destruct (t_rpm t) as [r|]; [|reflexivity]. cbn [option_map]. destruct R as [R1 R2]. change (Q2Qc 1000) with (zq 1000) in *.
    destruct (qclt_spec (readback (r / zq 1000) d * zq 1000) (zq 100000)) as [_|X]; [|elim X; now apply (rpm_small i)].
    destruct (qclt_spec r (zq 100000)) as [_|X]; [|elim X; now apply rpm_small']. rewrite div_back. now rewrite (write_value_rounded i d) by assumption. }
  rewrite E. rewrite F. cbn [snd]. destruct (t_diam t) as [v|]; cbn [option_map]; [|reflexivity].
  destruct U as [_ U]. now destruct (diameter_cut d v U V) as (_ & <- & _).
Qed.

Section File.
Variables (i d : nat) (f : xfile) (locs : list tloc).
Hypothesis U : usable_format i d.
Hypothesis F : xs_format (xf_set f) = (i, d).
Hypothesis PH : plain_header f locs.
Hypothesis PM : Permutation locs (map snd (xf_tools f)).
Hypothesis TK : forall n l, In (n, l) (xf_tools f) -> exists t, nth_error (xf_store f) l = Some t /\ t_num t = n /\ tool_in_range i d t.
Hypothesis HH : Forall (hit_in_range f i d) (xf_hits f).
Lemma header_of s : In s (before_sel (xf_stmts f)) -> fst s = EHeaderBegin \/ (exists u z fo, fst s = EUnit u z fo) \/ (exists l, In l locs /\ fst s = ETool l) \/ fst s = ERewind \/ fst s = EHeaderEnd.
Proof.
  destruct PH as (fo & e & rest & HS & He & Hrest). intros I.
  assert (X : In (fst s) (EHeaderBegin :: EUnit (xs_units (xf_set f)) (xs_zeros (xf_set f)) fo :: map ETool locs ++ [e])).
  { assert (G : forall a l, map fst l = a ++ rest -> In s (before_sel l) -> In (fst s) a).
    { induction a as [|x a IH]; intros l E J.
      - exfalso. destruct l as [|y l]; [exact J|]. cbn in E. destruct rest as [|r rest]; [discriminate|]. injection E as E1 E2. destruct r; try contradiction. cbn [before_sel] in J. unfold is_sel in J. rewrite E1 in J. exact J.
      - destruct l as [|y l]; [discriminate|]. cbn in E. injection E as E1 E2. cbn [before_sel] in J. destruct (is_sel y); [destruct J|]. destruct J as [->|J]; [left; congruence|right; eauto]. }
    apply (G _ (xf_stmts f)); [|exact I]. rewrite HS. cbn [app]. rewrite <- app_assoc. reflexivity. }
  destruct X as [X|[X|X]]; [left; congruence|right; left; eauto|]. apply in_app_or in X as [X|[X|[]]].
  - apply in_map_iff in X as (l & X & J). right. right. left. exists l. split; [exact J|congruence].
  - right. right. right. destruct He; [left|right]; congruence.
Qed.
Lemma mapM_ext {A B} (g h : A -> res B) l : (forall x, In x l -> g x = h x) -> mapM g l = mapM h l.
Proof. induction l as [|x l IH]; intros H; [reflexivity|]. cbn [mapM]. rewrite (H x (or_introl eq_refl)), IH; [reflexivity|]. intros; apply H; now right. Qed.
Lemma round_get l : tget (map (round_tool d) (xf_store f)) l = option_map (round_tool d) (tget (xf_store f) l).
Proof. apply nth_error_map. Qed.
Lemma loc_tool l : In l locs -> exists t, nth_error (xf_store f) l = Some t /\ tool_in_range i d t.
Proof. intros I. apply (Permutation_in _ PM) in I. apply in_map_iff in I as ([n l'] & E & I). cbn in E. subst l'. destruct (TK n l I) as (t & E & _ & W). eauto. Qed.
Lemma round_header : mapM (write_stmt (xf_set f) (map (round_tool d) (xf_store f))) (before_sel (xf_stmts f)) = mapM (write_stmt (xf_set f) (xf_store f)) (before_sel (xf_stmts f)).
Proof.
  apply mapM_ext. intros s I. destruct (header_of s I) as [E|[(u & z & fo & E)|[(l & J & E)|[E|E]]]]; unfold write_stmt; rewrite E; try reflexivity.
  destruct (loc_tool l J) as (t & G & R). rewrite round_get. unfold tget. rewrite G. cbn [option_map]. now apply (round_tool_text i).
Qed.
Lemma round_hits n hs : Forall (hit_in_range f i d) hs -> write_hits (xf_set f) (map (round_tool d) (xf_store f)) n (map (round_hit d) hs) = write_hits (xf_set f) (xf_store f) n hs.
Proof.
  induction 1 as [|h hs (k & l & x & y & -> & I & Fx & Fy) HS IH]; [reflexivity|]. destruct (TK k l I) as (t & E & En & _).
  cbn [map round_hit write_hits hit_tool fst snd]. unfold tool_at. rewrite round_get. unfold tget. rewrite E. cbn [option_map bind round_tool t_num].
  destruct (t_num t =? n)%Z; [|exact IH]. cbn [write_stmt fst snd]. 
  change (Some (readback x d)) with (ro d (Some x)). change (Some (readback y d)) with (ro d (Some y)). rewrite !(field_rounded i d) by assumption. now rewrite IH.
Qed.
Lemma round_jobs tools : (forall n l, In (n, l) tools -> In (n, l) (xf_tools f)) ->
  write_jobs (xf_set f) (map (round_tool d) (xf_store f)) (map (round_hit d) (xf_hits f)) tools = write_jobs (xf_set f) (xf_store f) (xf_hits f) tools.
Proof.
  induction tools as [|[n l] tools IH]; intros S; [reflexivity|]. destruct (TK n l (S n l (or_introl eq_refl))) as (t & E & En & _).
  cbn [write_jobs]. unfold tool_at. rewrite round_get. unfold tget. rewrite E. cbn [option_map bind round_tool t_num]. rewrite (round_hits _ _ HH), IH; [reflexivity|].
  intros; apply S; now right.
Qed.
Lemma round_write : write_file (round_file d f) = write_file f.
Proof. unfold write_file, write_lines. cbn [round_file xf_set xf_store xf_stmts xf_hits xf_tools]. rewrite round_header, round_jobs; auto. Qed.
Lemma near_holes hs : Forall (hit_in_range f i d) hs -> forall n,
  Forall2 (near_hole d) (filter (by_tool n) (map (hole_view (xf_store f)) hs)) (filter (by_tool n) (map (hole_view (map (round_tool d) (xf_store f))) (map (round_hit d) hs))).
Proof.
  intros HS n. induction HS as [|h hs (k & l & x & y & -> & I & Fx & Fy) HS IH]; [constructor|]. destruct (TK k l I) as (t & E & En & R).
  cbn [map round_hit fst snd]. unfold hole_view at 1 3. cbn [tool_of]. rewrite nth_error_map, E. cbn [option_map round_tool t_num t_diam filter by_tool].
  destruct (t_num t =? n)%Z; [|exact IH]. constructor; [|exact IH]. split; [reflexivity|]. split.
  - destruct R as (_ & _ & _ & _ & _ & _ & V). destruct (t_diam t) as [v|]; cbn; [|auto]. destruct U as [_ U']. now apply diameter_cut.
  - split; apply readback_close.
Qed.
End File.
Lemma C133_lemma holesize f i d locs : usable_format i d -> xs_format (xf_set f) = (i, d) -> xs_notation (xf_set f) = Absolute ->
  plain_header f locs -> same_units f -> Permutation locs (map snd (xf_tools f)) -> NoDup (map fst (xf_tools f)) ->
  (forall n l, In (n, l) (xf_tools f) -> exists t, nth_error (xf_store f) l = Some t /\ t_num t = n /\ tool_in_range i d t) ->
  Forall (hit_in_range f i d) (xf_hits f) ->
  exists text f', write_file f = Ok text /\ parse_raw holesize (xf_set f) [] text = Ok f' /\
    (xs_units (xf_set f') = xs_units (xf_set f) /\ xs_format (xf_set f') = xs_format (xf_set f) /\ xs_zeros (xf_set f') = xs_zeros (xf_set f)) /\
    (forall h, In h (xf_hits f') -> hole_view (xf_store f') h <> None) /\
    forall n, Forall2 (near_hole d) (filter (by_tool n) (map (hole_view (xf_store f)) (xf_hits f))) (filter (by_tool n) (map (hole_view (xf_store f')) (xf_hits f'))).
Proof.
  intros U F NA PH SU PM ND TK HH.
  destruct (C41_lemma holesize (round_file d f) i d locs U F NA PH SU PM ND) as (text & f' & W & P & SE & NS & V).
  - intros n l I. cbn [round_file xf_tools xf_store] in *. destruct (TK n l I) as (t & E & En & R). exists (round_tool d t). rewrite nth_error_map, E. split; [reflexivity|]. split; [exact En|]. now apply round_tool_writable.
  - cbn [round_file xf_hits]. apply Forall_forall. intros h I. apply in_map_iff in I as (h0 & <- & I). rewrite Forall_forall in HH. destruct (HH h0 I) as (k & l & x & y & -> & J & Fx & Fy).
    exists k, l, (readback x d), (readback y d). split; [reflexivity|]. split; [exact J|]. split; now apply readback_grid_value.
  - exists text, f'. split; [now rewrite <- (round_write i d f locs U F PH PM TK HH)|]. split; [exact P|]. split; [exact SE|]. split; [exact NS|]. intros n. rewrite V. cbn [round_file xf_store xf_hits]. now apply (near_holes i d f U TK).
Qed.

(** ** Conversion *)
(** The unit statement is written in the units it has now, whatever it was read with. *)
Definition relabel_stmt (w : unit_) (su : estmt * unit_) : estmt * unit_ := match su with (EUnit _ z fo, u) => (EUnit u z fo, u) | (ETool l, _) => (ETool l, w) | _ => su end.
Definition relabel (f : xfile) : xfile := mkXfile (xf_set f) (map (relabel_stmt (xs_units (xf_set f))) (xf_stmts f)) (xf_tools f) (xf_hits f) (xf_store f).
Lemma relabel_write f : write_file (relabel f) = write_file f.
Proof.
  unfold write_file, write_lines. cbn [relabel xf_set xf_store xf_stmts xf_hits xf_tools].
  assert (E : mapM (write_stmt (xf_set f) (xf_store f)) (before_sel (map (relabel_stmt (xs_units (xf_set f))) (xf_stmts f))) = mapM (write_stmt (xf_set f) (xf_store f)) (before_sel (xf_stmts f))).
  { induction (xf_stmts f) as [|[s u] l IH]; [reflexivity|]. cbn [map before_sel].
    replace (is_sel (relabel_stmt (xs_units (xf_set f)) (s, u))) with (is_sel (s, u)) by (destruct s; reflexivity). destruct (is_sel (s, u)); [reflexivity|]. cbn [mapM]. rewrite IH.
    destruct s; reflexivity. }
  now rewrite E.
Qed.
Lemma relabel_conv u s w : exists s', relabel_stmt u (conv_stmt u (s, w)) = (s', u).
Proof. unfold conv_stmt. cbn [fst snd]. destruct s; eexists; reflexivity. Qed.
Lemma relabel_same u f f1 : xs_units (xf_set f1) = u -> xf_stmts f1 = map (conv_stmt u) (xf_stmts f) -> same_units (relabel f1).
Proof.
  intros S1 M s w I. cbn [relabel xf_stmts xf_set] in *. rewrite S1 in *. rewrite M, map_map in I. apply in_map_iff in I as ([s0 w0] & E & _).
  destruct (relabel_conv u s0 w0) as (s' & X). rewrite X in E. now injection E.
Qed.
Definition conv_fst (u : unit_) (su : estmt * unit_) : estmt := fst (relabel_stmt u (conv_stmt u su)).
Lemma plain_header_converted u f f1 locs : plain_header f locs -> xs_units (xf_set f1) = u -> xs_zeros (xf_set f1) = xs_zeros (xf_set f) ->
  xf_stmts f1 = map (conv_stmt u) (xf_stmts f) -> plain_header (relabel f1) locs.
Proof.
  intros (fo & e & rest & HS & He & Hrest) S1 Z1 M.
  exists fo, e, (skipn (3 + List.length locs) (map (conv_fst u) (xf_stmts f))).
  cbn [relabel xf_stmts xf_set]. rewrite S1, Z1, M, !map_map. change (fun x => fst (relabel_stmt u (conv_stmt u x))) with (conv_fst u).
  destruct (xf_stmts f) as [|[a ua] [|[b ub] l]] eqn:X; try discriminate. cbn [map fst] in HS. injection HS as -> -> HS.
  cbn [map Nat.add skipn]. change (conv_fst u (EHeaderBegin, ua)) with EHeaderBegin. change (conv_fst u (EUnit (xs_units (xf_set f)) (xs_zeros (xf_set f)) fo, ub)) with (EUnit u (xs_zeros (xf_set f)) fo).
  assert (G : map (conv_fst u) l = map ETool locs ++ e :: skipn (S (List.length locs)) (map (conv_fst u) l) /\
     match skipn (S (List.length locs)) (map (conv_fst u) l) with [] => True | ESel _ _ :: _ => True | _ => False end).
  { clear - HS He Hrest. revert l HS. induction locs as [|x locs IH]; intros [|[s v] l] HS; try discriminate; cbn [map fst app] in HS; injection HS as -> HS.
    - cbn [map app List.length skipn]. split; [f_equal; destruct He as [->| ->]; reflexivity|].
      destruct rest as [|r rest]; destruct l as [|[s w] l]; try discriminate; [exact Logic.I|]. cbn [map fst] in HS. injection HS as -> _. destruct r; try contradiction. exact Logic.I.
    - cbn [map app List.length]. destruct (IH l HS) as [G1 G2]. split; [f_equal; exact G1|exact G2]. }
  destruct G as [G1 G2]. split; [f_equal; f_equal; exact G1|]. split; [exact He|exact G2].
Qed.

Lemma tool_in_range_converted i d u t t' : rescaled_tool u t t' -> tool_in_range_in u i d t -> tool_in_range i d t'.
Proof.
  intros (D & _ & N & A & B & C & R & E & _) (V & X). unfold tool_in_range in *. rewrite N, A, B, C, R, E. cbn [t_num t_retract t_feed t_maxhit t_depth t_rpm t_diam] in X.
  destruct X as (X1 & X2 & X3 & X4 & X5 & X6 & _). repeat (split; [assumption|]). rewrite D. destruct (t_diam t) as [v|]; cbn in *; auto.
Qed.
Lemma C134_lemma holesize f u i d locs : usable_format i d -> xs_format (xf_set f) = (i, d) -> xs_notation (xf_set f) = Absolute -> xs_units (xf_set f) <> u ->
  plain_header f locs -> consistent f -> Permutation locs (map snd (xf_tools f)) -> NoDup (map fst (xf_tools f)) ->
  (forall n l, In (n, l) (xf_tools f) -> exists t, nth_error (xf_store f) l = Some t /\ t_num t = n /\ tool_in_range_in u i d t) ->
  Forall (hit_in_range f i d) (xf_hits f) ->
  exists f1 text f2, convert u f = Ok f1 /\ write_file f1 = Ok text /\ parse_raw holesize (xf_set f1) [] text = Ok f2 /\ xs_units (xf_set f2) = u /\
    (forall h, In h (xf_hits f2) -> hole_view (xf_store f2) h <> None) /\
    forall n, Forall2 (misplaced_hole u d) (filter (by_tool n) (map (hole_view (xf_store f)) (xf_hits f))) (filter (by_tool n) (map (hole_view (xf_store f2)) (xf_hits f2))).
Proof.
  intros U F NA NU PH CO PM ND TK HH. destruct (C42_lemma u f CO NU) as (f1 & CV & S1 & T1 & ST & _ & H1 & _).
  assert (M : xf_stmts f1 = map (conv_stmt u) (xf_stmts f)) by (rewrite (convert_form u f CO NU) in CV; apply ok_inj in CV; subst f1; reflexivity).
  assert (TK1 : forall n l, In (n, l) (xf_tools f) -> exists t t', nth_error (xf_store f) l = Some t /\ nth_error (xf_store f1) l = Some t' /\ t_num t = n /\ rescaled_tool u t t' /\ tool_in_range i d t').
  { intros n l I. destruct (TK n l I) as (t & E & En & R). destruct (ST l t ltac:(left; exists n; exact I) E) as (t' & E' & RS). exists t, t'. repeat (split; [assumption|]). eapply tool_in_range_converted; eassumption. }
  destruct (C133_lemma holesize (relabel f1) i d locs U) as (text & f2 & W & P & (SE & _) & NS & V).
  - cbn [relabel xf_set]. now rewrite S1.
  - cbn [relabel xf_set]. now rewrite S1.
  - apply (plain_header_converted u f); [exact PH|now rewrite S1|now rewrite S1|exact M].
  - apply (relabel_same u f); [now rewrite S1|exact M].
  - cbn [relabel xf_tools]. now rewrite T1.
  - cbn [relabel xf_tools]. now rewrite T1.
  - cbn [relabel xf_tools xf_store]. rewrite T1. intros n l I. destruct (TK1 n l I) as (t & t' & E & E' & En & RS & R). exists t'. split; [exact E'|]. split; [|exact R]. destruct RS as (_ & _ & -> & _). exact En.
  - cbn [relabel xf_hits]. rewrite H1. eapply Forall_impl; [|exact HH]. intros h (n & l & x & y & A & B & C). exists n, l, x, y. cbn [relabel xf_tools]. rewrite T1. auto.
  - exists f1, text, f2. split; [exact CV|]. rewrite relabel_write in W. split; [exact W|]. split; [exact P|]. split; [rewrite SE; cbn [relabel xf_set]; now rewrite S1|]. split; [exact NS|].
    intros n. specialize (V n). cbn [relabel xf_store xf_hits] in V. rewrite H1 in V.
    assert (G : forall hs, Forall (hit_in_range f i d) hs -> forall r, Forall2 (near_hole d) (filter (by_tool n) (map (hole_view (xf_store f1)) hs)) r -> Forall2 (misplaced_hole u d) (filter (by_tool n) (map (hole_view (xf_store f)) hs)) r).
    { clear - TK1. induction 1 as [|h hs (k & l & x & y & -> & I & _) _ IH]; intros r; [cbn; intros Q; inversion Q; constructor|].
      destruct (TK1 k l I) as (t & t' & E & E' & En & (RD & _ & RN & _) & _). cbn [map]. unfold hole_view at 1 3. cbn [tool_of]. rewrite E, E'. cbn [filter by_tool]. rewrite RN.
      destruct (t_num t =? n)%Z; [|apply IH]. intros Q. inversion Q as [|? b ? r' N1 N2]; subst. constructor; [|now apply IH].
      destruct b as [[[m w] q]|]; [|destruct N1]. destruct N1 as (A & B & C). rewrite RD in B. split; [exact A|]. split; [exact B|exact C]. }
    now apply G.
Qed.

Lemma k_metric x : factor Metric x - x = x * Q2Qc (244 # 10).
Proof. cbn [factor]. replace (Q2Qc (244 # 10)) with (Q2Qc (254 # 10) - 1) by (apply qc_eq_iff; reflexivity). ring. Qed.
Lemma k_inch x : x - factor Inch x = x * Q2Qc (122 # 127).
Proof.
  cbn [factor]. replace (x / Q2Qc (254 # 10)) with (x * Q2Qc (5 # 127)) by (unfold Qcdiv; f_equal; apply qc_eq_iff; reflexivity).
  replace (Q2Qc (122 # 127)) with (1 - Q2Qc (5 # 127)) by (apply qc_eq_iff; reflexivity). ring.
Qed.
Lemma unit_place_pos d : 0 < unit_place d.
Proof.
  unfold unit_place. rewrite ten_p10. destruct (Qclt_le_dec 0 (1 / zq (p10 d))) as [H|H]; [exact H|exfalso].
  pose proof (zq_p10_pos d) as P. apply (Qcmult_le_compat_r _ _ (zq (p10 d))) in H; [|now apply Qclt_le_weak].
  replace (1 / zq (p10 d) * zq (p10 d)) with 1 in H by (field; intros E; rewrite E in P; now apply Qclt_not_eq in P). rewrite Qcmult_0_l in H. now apply H.
Qed.
Lemma two_halves d : half_ulp d + half_ulp d = unit_place d.
Proof.
  unfold unit_place, half_ulp, Qcdiv. rewrite <- Qcmult_plus_distr_l. f_equal. apply qc_eq_iff. reflexivity.
Qed.
Lemma factor_moves u d x : unit_place d + unit_place d <= qabs x -> forall q, within (half_ulp d) x q -> ~ within (half_ulp d) (factor u x) q.
Proof.
  intros B q A C. unfold within in *. apply qabs_bounds in A as [A1 A2]. apply qabs_bounds in C as [C1 C2]. pose proof (two_halves d) as H2. pose proof (unit_place_pos d) as P.
  assert (D1 : factor u x - x <= unit_place d) by qclra. assert (D2 : x - factor u x <= unit_place d) by qclra.
  assert (G : forall c, 1 < c + c -> qabs x * c <= unit_place d -> False).
  { intros c Hc G. assert (X : (unit_place d + unit_place d) * c <= qabs x * c) by (apply Qcmult_le_compat_r; [exact B|qclra]).
    assert (Y : unit_place d * 1 < unit_place d * (c + c)) by (rewrite !(Qcmult_comm (unit_place d)); apply Qcmult_lt_compat_r; assumption).
    replace ((unit_place d + unit_place d) * c) with (unit_place d * (c + c)) in X by ring. rewrite Qcmult_1_r in Y. qclra. }
  assert (K : exists c, 1 < c + c /\ qabs x * c = qabs (factor u x - x)).
  { destruct u.
    - exists (Q2Qc (122 # 127)). split; [reflexivity|]. replace (factor Inch x - x) with (- (x - factor Inch x)) by ring. rewrite k_inch, qabs_opp. symmetry. apply FloatCodec.qabs_mult_pos. reflexivity.
    - exists (Q2Qc (244 # 10)). split; [reflexivity|]. rewrite k_metric. symmetry. apply FloatCodec.qabs_mult_pos. reflexivity. }
  destruct K as (c & Hc & K). apply (G c Hc). rewrite K. apply qabs_bound; qclra.
Qed.
Lemma C134_everywhere_lemma u d n v x y b : unit_place d + unit_place d <= qabs x \/ unit_place d + unit_place d <= qabs y ->
  misplaced_hole u d (Some (n, v, (x, y))) b -> ~ same_hole_in u d (Some (n, v, (x, y))) b.
Proof.
  intros O M S. destruct b as [[[m w] q]|]; [|destruct M]. destruct M as (_ & _ & M1 & M2), S as (_ & _ & S1 & S2). cbn [fst snd] in *.
  destruct O as [O|O]; [now apply (factor_moves u d x O (fst q))|now apply (factor_moves u d y O (snd q))].
Qed.
Lemma Forall2_weaken {A B} (P Q : A -> B -> Prop) l m : (forall a b, P a b -> Q a b) -> Forall2 P l m -> Forall2 Q l m.
Proof. induction 2; constructor; auto. Qed.
Lemma C134_position_lemma holesize f u i d locs : usable_format i d -> xs_format (xf_set f) = (i, d) -> xs_notation (xf_set f) = Absolute -> xs_units (xf_set f) <> u ->
  plain_header f locs -> consistent f -> Permutation locs (map snd (xf_tools f)) -> NoDup (map fst (xf_tools f)) ->
  (forall n l, In (n, l) (xf_tools f) -> exists t, nth_error (xf_store f) l = Some t /\ t_num t = n /\ tool_in_range_in u i d t) ->
  Forall (hit_in_range f i d) (xf_hits f) ->
  exists f1 text f2, convert u f = Ok f1 /\ write_file f1 = Ok text /\ parse_raw holesize (xf_set f1) [] text = Ok f2 /\ xs_units (xf_set f2) = u /\
    forall n, Forall2 (fun a b => off_origin d a -> ~ same_hole_in u d a b)
      (filter (by_tool n) (map (hole_view (xf_store f)) (xf_hits f))) (filter (by_tool n) (map (hole_view (xf_store f2)) (xf_hits f2))).
Proof.
  intros U F NA NU PH CO PM ND TK HH. destruct (C134_lemma holesize f u i d locs U F NA NU PH CO PM ND TK HH) as (f1 & text & f2 & A & B & C & D & V).
  exists f1, text, f2. repeat (split; [assumption|]). intros n. eapply Forall2_weaken; [|apply V]. intros [[[m w] [x y]]|] b M O; [|destruct O].
  now apply C134_everywhere_lemma.
Qed.
