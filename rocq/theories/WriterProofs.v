(** Proofs about rendering to RS-274X statements. *)
From Verif Require Import PyBase QcLib NumModel NumSpec GerberText GerberTextSpec GerberTextProofs MacroModel GerberEval GerberEvalSpec GerberEvalProofs WriterModel WriterSpec.
Open Scope Qc_scope.
Open Scope list_scope.

(** ** Equality tests *)
Lemma oeq_iff a b : oeq a b = true <-> a = b.
Proof.
  destruct a as [a|], b as [b|]; cbn; try (split; congruence).
  destruct (qceq_spec a b) as [->|N]; split; congruence.
Qed.
Lemma holes_eq_iff a b : holes_eq a b = true <-> a = b.
Proof.
  destruct a as [[x y] z], b as [[x' y'] z']. cbn. rewrite !andb_true_iff, !oeq_iff. split; [intros [[-> ->] ->]; reflexivity|intros [= -> -> ->]; auto].
Qed.
Lemma qceq_iff a b : qceq a b = true <-> a = b.
Proof. destruct (qceq_spec a b); split; congruence. Qed.
Lemma key_eq_iff a b : key_eq a b = true <-> a = b.
Proof.
  destruct a, b; cbn [key_eq]; try (split; congruence); rewrite !andb_true_iff, holes_eq_iff, ?Z.eqb_eq, !qceq_iff.
  - split; [intros [-> ->]; reflexivity|intros [= -> ->]; auto].
  - split; [intros [[-> ->] ->]; reflexivity|intros [= -> -> ->]; auto].
  - split; [intros [[-> ->] ->]; reflexivity|intros [= -> -> ->]; auto].
  - split; [intros [[[-> ->] ->] ->]; reflexivity|intros [= -> -> -> ->]; auto].
Qed.
Lemma pt_eq_iff (a b : point) : pt_eq a b = true <-> a = b.
Proof. unfold pt_eq. rewrite andb_true_iff, !qceq_iff. destruct a, b; cbn. split; [intros [-> ->]; reflexivity|intros [= -> ->]; auto]. Qed.
Lemma pol_eq_iff a b : pol_eq a b = true <-> a = b.
Proof. destruct a as [[]|], b as [[]|]; cbn; split; congruence. Qed.
Lemma kget_in k l d : kget k l = Some d -> In (k, d) l.
Proof.
  induction l as [|[k' d'] l IH]; cbn; [discriminate|]. destruct (key_eq k' k) eqn:E; [|auto].
  apply key_eq_iff in E as ->. intros [= ->]. now left.
Qed.
Lemma kget_none k l : kget k l = None -> ~ In k (map fst l).
Proof.
  induction l as [|[k' d'] l IH]; cbn; [auto|]. destruct (key_eq k' k) eqn:E; [discriminate|]. intros H [->|I]; [|now apply IH].
  assert (key_eq k k = true) by now apply key_eq_iff. congruence.
Qed.

Lemma NoDup_app_snoc {A} (l : list A) x : NoDup l -> ~ In x l -> NoDup (l ++ [x]).
Proof.
  induction 1 as [|y l N D IH]; cbn; intro H; [constructor; [auto|constructor]|].
  constructor; [|apply IH; auto]. intro I. apply in_app_or in I as [I|[->|[]]]; [now apply N|]. apply H. now left.
Qed.

(** ** The book-keeping of D-codes *)
Definition base (b : bool) (st : pset) : list stmt := [SFS (p_zs st) (p_abs st) (p_fmt st); SMO b (p_units st)].
Definition defs (t : list (key * Z)) : list stmt := map (fun x => definition_stmt (fst x) (snd x)) t.
Record book (st : pset) (c : ctx) : Prop := {
  b_header : c_header c = base false st ++ defs (c_table c);
  b_keys : NoDup (map fst (c_table c));
  b_codes : NoDup (map snd (c_table c));
  b_range : Forall (fun x => (10 <= snd x < c_next c)%Z) (c_table c);
  b_next : (10 <= c_next c)%Z;
  b_used : forall d x, In (SAp d x) (c_body c) -> In d (map snd (c_table c));
  b_current : forall d, c_dcode c = Some d -> In d (map snd (c_table c));
  b_selected : forall d, c_dcode c = Some d -> current_selection (rev (c_body c)) = d }.
Lemma new_book st : book st (new_context st).
Proof. split; cbn; auto; try constructor; try discriminate; try lia; contradiction. Qed.
Definition is_select (s : stmt) : bool := match s with SAp _ _ => true | _ => false end.
Lemma unselected l : forallb (fun s => negb (is_select s)) l = true -> forall past, current_selection (rev l ++ past) = current_selection past.
Proof.
  induction l as [|s l IH]; intros F past; [reflexivity|]. cbn [forallb] in F. apply andb_prop in F as [F1 F2]. cbn [rev]. rewrite <- app_assoc, IH by exact F2.
  destruct s; try reflexivity; discriminate.
Qed.
Lemma book_same st c c' l : c_header c' = c_header c -> c_table c' = c_table c -> c_next c' = c_next c -> c_dcode c' = c_dcode c ->
  c_body c' = c_body c ++ l -> forallb (fun s => negb (is_select s)) l = true -> book st c -> book st c'.
Proof.
  intros H T N D B F [B1 B2 B3 B4 B5 B6 B7 B8]. split; rewrite ?H, ?T, ?N, ?D; auto.
  - intros d x I. rewrite B in I. apply in_app_or in I as [I|I]; [eauto|].
    rewrite forallb_forall in F. specialize (F _ I). discriminate.
  - intros d E. rewrite B, rev_app_distr, unselected by exact F. auto.
Qed.
Lemma get_book st k c : book st c -> let (d, c') := get_aperture k None c in
  book st c' /\ In (k, d) (c_table c') /\ incl (c_table c) (c_table c').
Proof.
  intros B. unfold get_aperture. destruct (kget k (c_table c)) as [d|] eqn:E.
  - split; [exact B|]. split; [now apply kget_in|apply incl_refl].
  - cbn [c_table]. split; [|split; [apply in_or_app; right; now left|apply incl_appl, incl_refl]].
    destruct B as [B1 B2 B3 B4 B5 B6 B7 B8]. apply kget_none in E. split; cbn [c_header c_table c_next c_body c_dcode].
    + rewrite B1. unfold defs. now rewrite map_app, app_assoc.
    + rewrite map_app. apply NoDup_app_snoc; assumption.
    + rewrite map_app. apply NoDup_app_snoc; [exact B3|]. intro I. apply in_map_iff in I. destruct I as (x & Ex & I).
      rewrite Forall_forall in B4. specialize (B4 _ I). cbn in Ex. lia.
    + apply Forall_app. split; [|constructor; [cbn; lia|constructor]]. eapply Forall_impl; [|exact B4]. cbn. intros. lia.
    + lia.
    + intros d x I. rewrite map_app. apply in_or_app. left. eauto.
    + intros d I. rewrite map_app. apply in_or_app. left. auto.
    + exact B8.
Qed.
Lemma select_book st k d c : book st c -> In (k, d) (c_table c) -> book st (select d c).
Proof.
  intros B I. assert (I' : In d (map snd (c_table c))) by (apply in_map_iff; now exists (k, d)).
  assert (G : book st (with_dcode (Some d) (emit [SAp d false] c))).
  { destruct B as [B1 B2 B3 B4 B5 B6 B7 B8]. split; cbn; auto.
    - intros d' x J. apply in_app_or in J as [J|[J|[]]]; [eauto|]. injection J as -> _. exact I'.
    - intros d' [= ->]. exact I'.
    - intros d' [= ->]. rewrite rev_app_distr. reflexivity. }
  unfold select. destruct (c_dcode c); [destruct (d =? z)%Z|]; assumption.
Qed.

Definition kept (st : pset) (c c' : ctx) : Prop := book st c -> book st c' /\ incl (c_table c) (c_table c').
Lemma kept_refl st c : kept st c c. Proof. intro B. split; [exact B|apply incl_refl]. Qed.
Lemma kept_trans st a b c : kept st a b -> kept st b c -> kept st a c.
Proof. intros H1 H2 B. destruct (H1 B) as [B1 I1]. destruct (H2 B1) as [B2 I2]. split; [exact B2|]. eapply incl_tran; eassumption. Qed.
Lemma kept_same st c c' l : c_header c' = c_header c -> c_table c' = c_table c -> c_next c' = c_next c -> c_dcode c' = c_dcode c ->
  c_body c' = c_body c ++ l -> forallb (fun s => negb (is_select s)) l = true -> kept st c c'.
Proof. intros H T N D B F K. split; [eapply book_same; eauto|rewrite T; apply incl_refl]. Qed.
Ltac same_nil := apply kept_same with (l := []); try reflexivity; cbn; now rewrite app_nil_r.
Lemma kept_use st k c : let (d, c1) := get_aperture k None c in kept st c (select d c1).
Proof.
  destruct (get_aperture k None c) as [d c1] eqn:E. intro B. pose proof (get_book st k c B) as H. rewrite E in H. destruct H as (B1 & I & J).
  split; [now apply select_book with k|]. unfold select. destruct (c_dcode c1); [destruct (d =? z)%Z|]; exact J.
Qed.
Lemma kept_aperture st a c c' : select_aperture a c = Ok c' -> kept st c c'.
Proof.
  destruct a as [[d h|w h hs t|w h hs t|n r t hs]|]; cbn [select_aperture]; intro H.
  - pose proof (kept_use st (KCircle d h) c) as K. destruct (get_aperture (KCircle d h) None c). apply ok_inj in H as <-. exact K.
  - pose proof (kept_use st (KRect w h no_holes) c) as K. destruct (get_aperture (KRect w h no_holes) None c). apply ok_inj in H as <-. exact K.
  - pose proof (kept_use st (KObround w h no_holes) c) as K. destruct (get_aperture (KObround w h no_holes) None c). apply ok_inj in H as <-. exact K.
  - discriminate.
  - apply ok_inj in H as <-. apply kept_refl.
Qed.
Lemma kept_emit st l c : forallb (fun s => negb (is_select s)) l = true -> kept st c (emit l c).
Proof. intro F. apply kept_same with l; try reflexivity. exact F. Qed.
Lemma kept_polarity st p d c : kept st c (level_polarity p d c).
Proof.
  unfold level_polarity. set (q := match p with Some _ => p | None => d end). destruct (pol_eq q (c_pol c)); [apply kept_refl|].
  apply kept_same with [SLP (match q with Some p => p | None => Dark end)]; reflexivity.
Qed.
Lemma kept_finish st b f c : kept st c (finish_line b f c).
Proof.
  unfold finish_line. destruct (simplify_point b c) as [[x|] [y|]]; try (eapply kept_same; try reflexivity; reflexivity).
  destruct f; [apply kept_emit; reflexivity|apply kept_refl].
Qed.
Lemma kept_line st a b ap p d c c' : render_line a b ap p d c = Ok c' -> kept st c c'.
Proof.
  unfold render_line. destruct (select_aperture ap c) as [c1|] eqn:E; [|discriminate]. cbn [bind]. intro H. apply ok_inj in H as <-.
  apply kept_trans with c1; [now apply kept_aperture with ap|]. apply kept_trans with (level_polarity p d c1); [apply kept_polarity|].
  set (c2 := level_polarity p d c1). set (f := if is_func "G01" c2 then None else Some (T "G01")).
  set (c3 := with_func (Some (T "G01")) c2). apply kept_trans with c3; [same_nil|].
  destruct (is_here a c3); [apply kept_finish|]. eapply kept_trans; [|apply kept_finish]. eapply kept_same; try reflexivity; reflexivity.
Qed.
Lemma kept_arc st a b cen dir ap q p d c c' : render_arc a b cen dir ap q p d c = Ok c' -> kept st c c'.
Proof.
  unfold render_arc. set (c0 := if match c_quad c with Some q' => quad_eq q q' | None => false end then c else with_cquad (Some q) (emit [SQuad q] c)).
  destruct (select_aperture ap c0) as [c1|] eqn:E; [|discriminate]. cbn [bind].
  set (c2 := level_polarity p d c1). set (f := match dir with Clockwise => T "G02" | Counterclockwise => T "G03" end).
  set (c3 := with_func (Some f) c2). set (c4 := if is_here a c3 then c3 else with_pos (Some a) (emit [coord_stmt (Some (T "G01")) (simplify_point a c3) "D02"] c3)).
  destruct (simplify_offset cen a) as [i j], (simplify_point b c4) as [x y]. intro H. apply ok_inj in H as <-.
  apply kept_trans with c0; [unfold c0; destruct (match c_quad c with Some q' => quad_eq q q' | None => false end); [apply kept_refl|eapply kept_same; try reflexivity; reflexivity]|].
  apply kept_trans with c1; [now apply kept_aperture with ap|]. apply kept_trans with c2; [apply kept_polarity|].
  apply kept_trans with c3; [same_nil|].
  apply kept_trans with c4; [unfold c4; destruct (is_here a c3); [apply kept_refl|eapply kept_same; try reflexivity; reflexivity]|].
  eapply kept_same; try reflexivity; reflexivity.
Qed.
Lemma kept_stroke st s d c c' : render_stroke s d c = Ok c' -> kept st c c'.
Proof. destruct s; cbn [render_stroke]; [apply kept_line|apply kept_arc]. Qed.
Lemma kept_strokes st l d : forall c c', render_strokes l d c = Ok c' -> kept st c c'.
Proof.
  induction l as [|s l IH]; intros c c' H; cbn [render_strokes] in H; [apply ok_inj in H as <-; apply kept_refl|].
  destruct (render_stroke s d c) as [c1|] eqn:E; [|discriminate]. cbn [bind] in H. apply kept_trans with c1; [now apply kept_stroke with s d|auto].
Qed.
Lemma kept_render st o x c c' : render o x c = Ok c' -> kept st c c'.
Proof.
  unfold render. set (c0 := match i_comment x with Some t => emit [SCom t] c | None => c end). intro H.
  apply kept_trans with c0; [unfold c0; destruct (i_comment x); [now apply kept_emit|apply kept_refl]|].
  destruct (i_thing x) as [s|l p|f p pol| |].
  - now apply kept_stroke with s (Some Dark).
  - unfold render_region in H. destruct (render_strokes l p (emit [SReg On] (level_polarity p (Some Dark) c0))) as [c1|] eqn:E; [|discriminate].
    cbn [bind] in H. apply ok_inj in H as <-. apply kept_trans with (level_polarity p (Some Dark) c0); [apply kept_polarity|].
    eapply kept_trans; [apply (kept_emit st [SReg On]); reflexivity|]. eapply kept_trans; [eapply kept_strokes; exact E|].
    destruct (explicit_region_move_end o); [eapply kept_trans; [|apply kept_emit; reflexivity]; apply kept_emit; reflexivity|apply kept_emit; reflexivity].
  - destruct (get_aperture (figure_key f) None c0) as [d c1] eqn:E. apply ok_inj in H as <-.
    intro B. pose proof (get_book st (figure_key f) c0 B) as G. rewrite E in G. destruct G as (B1 & I & J).
    destruct (kept_polarity st pol (Some Dark) c1 B1) as [B2 J2].
    assert (I2 : In (figure_key f, d) (c_table (level_polarity pol (Some Dark) c1))) by now apply J2.
    pose proof (select_book _ _ _ _ B2 I2) as B3.
    assert (J3 : incl (c_table c0) (c_table (select d (level_polarity pol (Some Dark) c1)))).
    { eapply incl_tran; [exact J|]. eapply incl_tran; [exact J2|]. unfold select. destruct (c_dcode _); [destruct (d =? z)%Z|]; apply incl_refl. }
    unfold render_flash. destruct (condensed_flash o).
    + assert (K : kept st (select d (level_polarity pol (Some Dark) c1)) (with_pos (Some p) (emit [coord_stmt None (simplify_point p (select d (level_polarity pol (Some Dark) c1))) "D03"] (select d (level_polarity pol (Some Dark) c1))))) by (eapply kept_same; try reflexivity; reflexivity).
      destruct (K B3) as [B4 J4]. split; [exact B4|exact J3].
    + assert (K : kept st (select d (level_polarity pol (Some Dark) c1)) (with_pos (Some p) (emit [coord_stmt None (simplify_point p (select d (level_polarity pol (Some Dark) c1))) "D02"; SCoord None None None None None (Some (T "D03"))] (select d (level_polarity pol (Some Dark) c1))))) by (eapply kept_same; try reflexivity; reflexivity).
      destruct (K B3) as [B4 J4]. split; [exact B4|exact J3].
  - discriminate.
  - apply ok_inj in H as <-. apply kept_refl.
Qed.
Lemma kept_all st o l : forall c c', render_all o l c = Ok c' -> kept st c c'.
Proof.
  induction l as [|s l IH]; intros c c' H; cbn [render_all] in H; [apply ok_inj in H as <-; apply kept_refl|].
  destruct (render o s c) as [c1|] eqn:E; [|discriminate]. cbn [bind] in H. apply kept_trans with c1; [now apply kept_render with o s|auto].
Qed.

(** ** How rendering extends a context, whatever is in it *)
Fixpoint number (n : Z) (ks : list key) : list (key * Z) := match ks with [] => [] | k :: r => (k, n) :: number (n + 1) r end.
Definition grown (c c' : ctx) : Prop := exists ks bs,
  c_table c' = c_table c ++ number (c_next c) ks /\ c_header c' = c_header c ++ defs (number (c_next c) ks) /\
  c_next c' = (c_next c + Z.of_nat (List.length ks))%Z /\ c_body c' = c_body c ++ bs /\
  (forall d x, In (SAp d x) bs -> In d (map snd (c_table c'))).
Lemma number_app n a b : number n (a ++ b) = number n a ++ number (n + Z.of_nat (List.length a)) b.
Proof.
  revert n. induction a as [|k a IH]; intro n; [cbn; now rewrite Z.add_0_r|]. cbn [app number List.length]. rewrite IH. do 3 f_equal. lia.
Qed.
Lemma grown_incl c c' : grown c c' -> incl (c_table c) (c_table c').
Proof. intros (ks & bs & -> & _). apply incl_appl, incl_refl. Qed.
Lemma grown_refl c : grown c c.
Proof. exists [], []. cbn. rewrite !app_nil_r, Z.add_0_r. repeat split; auto. contradiction. Qed.
Lemma grown_trans a b c : grown a b -> grown b c -> grown a c.
Proof.
  intros (k1 & b1 & T1 & H1 & N1 & B1 & U1) (k2 & b2 & T2 & H2 & N2 & B2 & U2). exists (k1 ++ k2), (b1 ++ b2).
  rewrite number_app, <- N1. split; [rewrite T2, T1; now rewrite app_assoc|]. split; [rewrite H2, H1; unfold defs; now rewrite map_app, app_assoc|].
  split; [rewrite N2, N1, app_length; lia|]. split; [rewrite B2, B1; now rewrite app_assoc|].
  intros d x I. apply in_app_or in I as [I|I]; [|eauto]. apply U1 in I. rewrite T2, map_app. apply in_or_app. now left.
Qed.
Lemma grown_same c c' l : c_header c' = c_header c -> c_table c' = c_table c -> c_next c' = c_next c ->
  c_body c' = c_body c ++ l -> forallb (fun s => negb (is_select s)) l = true -> grown c c'.
Proof.
  intros H T N B F. exists [], l. cbn. rewrite !app_nil_r, Z.add_0_r. repeat split; auto.
  intros d x I. rewrite forallb_forall in F. specialize (F _ I). discriminate.
Qed.
Ltac grown_nil := apply grown_same with (l := []); try reflexivity; cbn; now rewrite app_nil_r.
Lemma grown_get k c : let (d, c') := get_aperture k None c in grown c c' /\ In (k, d) (c_table c').
Proof.
  unfold get_aperture. destruct (kget k (c_table c)) as [d|] eqn:E; [split; [apply grown_refl|now apply kget_in]|].
  split; [|cbn; apply in_or_app; right; now left]. exists [k], []. cbn. rewrite app_nil_r. repeat split; auto. contradiction.
Qed.
Lemma grown_select d c : In d (map snd (c_table c)) -> grown c (select d c).
Proof.
  intro I. assert (G : grown c (with_dcode (Some d) (emit [SAp d false] c))).
  { exists [], [SAp d false]. cbn. rewrite !app_nil_r, Z.add_0_r. repeat split; auto. intros d' x [[= <- _]|[]]. exact I. }
  unfold select. destruct (c_dcode c); [destruct (d =? z)%Z; [apply grown_refl|]|]; exact G.
Qed.
Lemma grown_use k c : let (d, c1) := get_aperture k None c in grown c (select d c1).
Proof.
  pose proof (grown_get k c) as G. destruct (get_aperture k None c) as [d c1]. destruct G as [G I]. eapply grown_trans; [exact G|]. apply grown_select.
  apply in_map_iff. now exists (k, d).
Qed.
Lemma grown_aperture a c c' : select_aperture a c = Ok c' -> grown c c'.
Proof.
  destruct a as [[d h|w h hs t|w h hs t|n r t hs]|]; cbn [select_aperture]; intro H.
  - pose proof (grown_use (KCircle d h) c) as K. destruct (get_aperture (KCircle d h) None c). apply ok_inj in H as <-. exact K.
  - pose proof (grown_use (KRect w h no_holes) c) as K. destruct (get_aperture (KRect w h no_holes) None c). apply ok_inj in H as <-. exact K.
  - pose proof (grown_use (KObround w h no_holes) c) as K. destruct (get_aperture (KObround w h no_holes) None c). apply ok_inj in H as <-. exact K.
  - discriminate.
  - apply ok_inj in H as <-. apply grown_refl.
Qed.
Lemma grown_emit l c : forallb (fun s => negb (is_select s)) l = true -> grown c (emit l c).
Proof. intro F. apply grown_same with l; try reflexivity. exact F. Qed.
Lemma grown_polarity p d c : grown c (level_polarity p d c).
Proof.
  unfold level_polarity. set (q := match p with Some _ => p | None => d end). destruct (pol_eq q (c_pol c)); [apply grown_refl|].
  apply grown_same with [SLP (match q with Some p => p | None => Dark end)]; reflexivity.
Qed.
Lemma grown_finish b f c : grown c (finish_line b f c).
Proof.
  unfold finish_line. destruct (simplify_point b c) as [[x|] [y|]]; try (eapply grown_same; try reflexivity; reflexivity).
  destruct f; [apply grown_emit; reflexivity|apply grown_refl].
Qed.
Lemma grown_line a b ap p d c c' : render_line a b ap p d c = Ok c' -> grown c c'.
Proof.
  unfold render_line. destruct (select_aperture ap c) as [c1|] eqn:E; [|discriminate]. cbn [bind]. intro H. apply ok_inj in H as <-.
  apply grown_trans with c1; [now apply grown_aperture with ap|]. apply grown_trans with (level_polarity p d c1); [apply grown_polarity|].
  set (c2 := level_polarity p d c1). set (f := if is_func "G01" c2 then None else Some (T "G01")).
  set (c3 := with_func (Some (T "G01")) c2). apply grown_trans with c3; [grown_nil|].
  destruct (is_here a c3); [apply grown_finish|]. eapply grown_trans; [|apply grown_finish]. eapply grown_same; try reflexivity; reflexivity.
Qed.
Lemma grown_arc a b cen dir ap q p d c c' : render_arc a b cen dir ap q p d c = Ok c' -> grown c c'.
Proof.
  unfold render_arc. set (c0 := if match c_quad c with Some q' => quad_eq q q' | None => false end then c else with_cquad (Some q) (emit [SQuad q] c)).
  destruct (select_aperture ap c0) as [c1|] eqn:E; [|discriminate]. cbn [bind].
  set (c2 := level_polarity p d c1). set (f := match dir with Clockwise => T "G02" | Counterclockwise => T "G03" end).
  set (c3 := with_func (Some f) c2). set (c4 := if is_here a c3 then c3 else with_pos (Some a) (emit [coord_stmt (Some (T "G01")) (simplify_point a c3) "D02"] c3)).
  destruct (simplify_offset cen a) as [i j], (simplify_point b c4) as [x y]. intro H. apply ok_inj in H as <-.
  apply grown_trans with c0; [unfold c0; destruct (match c_quad c with Some q' => quad_eq q q' | None => false end); [apply grown_refl|eapply grown_same; try reflexivity; reflexivity]|].
  apply grown_trans with c1; [now apply grown_aperture with ap|]. apply grown_trans with c2; [apply grown_polarity|].
  apply grown_trans with c3; [grown_nil|].
  apply grown_trans with c4; [unfold c4; destruct (is_here a c3); [apply grown_refl|eapply grown_same; try reflexivity; reflexivity]|].
  eapply grown_same; try reflexivity; reflexivity.
Qed.
Lemma grown_stroke s d c c' : render_stroke s d c = Ok c' -> grown c c'.
Proof. destruct s; cbn [render_stroke]; [apply grown_line|apply grown_arc]. Qed.
Lemma grown_strokes l d : forall c c', render_strokes l d c = Ok c' -> grown c c'.
Proof.
  induction l as [|s l IH]; intros c c' H; cbn [render_strokes] in H; [apply ok_inj in H as <-; apply grown_refl|].
  destruct (render_stroke s d c) as [c1|] eqn:E; [|discriminate]. cbn [bind] in H. apply grown_trans with c1; [now apply grown_stroke with s d|auto].
Qed.
Lemma grown_flash o p pol d c : In d (map snd (c_table c)) -> grown c (render_flash o p pol d c).
Proof.
  intro I. unfold render_flash. pose proof (grown_polarity pol (Some Dark) c) as G. eapply grown_trans; [exact G|].
  assert (I1 : In d (map snd (c_table (level_polarity pol (Some Dark) c)))).
  { apply grown_incl in G. apply in_map_iff in I as (x & E & J). apply in_map_iff. eauto. }
  eapply grown_trans; [apply grown_select; exact I1|]. destruct (condensed_flash o); eapply grown_same; try reflexivity; reflexivity.
Qed.
Lemma grown_render o x c c' : render o x c = Ok c' -> grown c c'.
Proof.
  unfold render. set (c0 := match i_comment x with Some t => emit [SCom t] c | None => c end). intro H.
  apply grown_trans with c0; [unfold c0; destruct (i_comment x); [now apply grown_emit|apply grown_refl]|].
  destruct (i_thing x) as [s|l p|f p pol| |].
  - now apply grown_stroke with s (Some Dark).
  - unfold render_region in H. destruct (render_strokes l p (emit [SReg On] (level_polarity p (Some Dark) c0))) as [c1|] eqn:E; [|discriminate].
    cbn [bind] in H. apply ok_inj in H as <-. apply grown_trans with (level_polarity p (Some Dark) c0); [apply grown_polarity|].
    eapply grown_trans; [apply (grown_emit [SReg On]); reflexivity|]. eapply grown_trans; [eapply grown_strokes; exact E|].
    destruct (explicit_region_move_end o); [eapply grown_trans; [|apply grown_emit; reflexivity]; apply grown_emit; reflexivity|apply grown_emit; reflexivity].
  - pose proof (grown_get (figure_key f) c0) as G. destruct (get_aperture (figure_key f) None c0) as [d c1]. destruct G as [G I]. apply ok_inj in H as <-.
    eapply grown_trans; [exact G|]. apply grown_flash. apply in_map_iff. now exists (figure_key f, d).
  - discriminate.
  - apply ok_inj in H as <-. apply grown_refl.
Qed.
Lemma grown_all o l : forall c c', render_all o l c = Ok c' -> grown c c'.
Proof.
  induction l as [|s l IH]; intros c c' H; cbn [render_all] in H; [apply ok_inj in H as <-; apply grown_refl|].
  destruct (render o s c) as [c1|] eqn:E; [|discriminate]. cbn [bind] in H. apply grown_trans with c1; [now apply grown_render with o s|auto].
Qed.

(** After a flash the aperture of the figure is selected. *)
Lemma flash_selects st o f p pol cm c c' : book st c -> render o (mkItem cm (TFlash f p pol)) c = Ok c' ->
  In (figure_key f, current_selection (rev (c_body c'))) (c_table c').
Proof.
  intros B H. destruct (kept_render st o _ c c' H B) as [B' _]. unfold render in H. cbn [i_comment i_thing] in H.
  set (c0 := match cm with Some t => emit [SCom t] c | None => c end) in *.
  assert (B0 : book st c0) by (unfold c0; destruct cm; [apply (kept_emit st [SCom _] c eq_refl B)|exact B]).
  pose proof (get_book st (figure_key f) c0 B0) as G. destruct (get_aperture (figure_key f) None c0) as [d c1]. destruct G as (B1 & I & _). apply ok_inj in H.
  assert (T : c_table c' = c_table c1).
  { subst c'. unfold render_flash, select, level_polarity. destruct (pol_eq _ _), (condensed_flash o); cbn; destruct (c_dcode c1); try destruct (d =? z)%Z; reflexivity. }
  assert (D : c_dcode c' = Some d).
  { subst c'. unfold render_flash, select, level_polarity. destruct (pol_eq _ _), (condensed_flash o); cbn; destruct (c_dcode c1) eqn:E; cbn; try destruct (d =? z)%Z eqn:Ez; cbn; try reflexivity;
      apply Z.eqb_eq in Ez as ->; exact E. }
  rewrite (b_selected _ _ B' _ D), T. exact I.
Qed.
Lemma figure_key_iff f g : figure_key f = figure_key g <-> same_figure f g.
Proof. destruct f, g; cbn; split; try discriminate; try contradiction; try (intros [= -> -> -> ->]; auto); try (intros [= -> -> ->]; auto); try (intros [= -> ->]; auto); intuition congruence. Qed.
Lemma render_all_app o l1 l2 : forall c, render_all o (l1 ++ l2) c = do c <- render_all o l1 c; render_all o l2 c.
Proof. induction l1 as [|x l1 IH]; intro c; [reflexivity|]. cbn. destruct (render o x c); [apply IH|reflexivity]. Qed.
Lemma nodup_snd {A B} (l : list (A * B)) a b b' : NoDup (map fst l) -> In (a, b) l -> In (a, b') l -> b = b'.
Proof.
  induction l as [|[x y] l IH]; cbn; [contradiction|]. inversion 1; subst. intros [E|I] [E'|J]; try congruence; try (now apply IH).
  - injection E as -> ->. exfalso. apply H2. apply in_map_iff. now exists (a, b').
  - injection E' as -> ->. exfalso. apply H2. apply in_map_iff. now exists (a, b).
Qed.
Lemma nodup_fst {A B} (l : list (A * B)) a a' b : NoDup (map snd l) -> In (a, b) l -> In (a', b) l -> a = a'.
Proof.
  induction l as [|[x y] l IH]; cbn; [contradiction|]. inversion 1; subst. intros [E|I] [E'|J]; try congruence; try (now apply IH).
  - injection E as -> ->. exfalso. apply H2. apply in_map_iff. now exists (a', b).
  - injection E' as -> ->. exfalso. apply H2. apply in_map_iff. now exists (a, b).
Qed.
Lemma same_code_lemma st o l1 cm1 f1 p1 pol1 l2 cm2 f2 p2 pol2 c1 c2 :
  render_all o (l1 ++ [mkItem cm1 (TFlash f1 p1 pol1)]) (new_context st) = Ok c1 ->
  render_all o (l2 ++ [mkItem cm2 (TFlash f2 p2 pol2)]) c1 = Ok c2 ->
  current_selection (rev (c_body c1)) = current_selection (rev (c_body c2)) <-> same_figure f1 f2.
Proof.
  intros H1 H2. rewrite <- figure_key_iff.
  assert (E : forall l c x c', render_all o (l ++ [x]) c = Ok c' -> exists c0, render_all o l c = Ok c0 /\ render o x c0 = Ok c').
  { intros l c x c' H. rewrite render_all_app in H. destruct (render_all o l c) as [c0|]; [|discriminate]. cbn in H. exists c0. split; [reflexivity|].
    destruct (render o x c0); [|discriminate]. exact H. }
  destruct (kept_all st o _ _ _ H1 (new_book st)) as [B1 _]. destruct (kept_all st o _ _ _ H2 B1) as [B2 I2].
  apply E in H1 as (c10 & H10 & H11). apply E in H2 as (c20 & H20 & H21).
  destruct (kept_all st o _ _ _ H10 (new_book st)) as [B10 _]. destruct (kept_all st o _ _ _ H20 B1) as [B20 _].
  pose proof (flash_selects _ _ _ _ _ _ _ _ B10 H11) as S1. pose proof (flash_selects _ _ _ _ _ _ _ _ B20 H21) as S2. apply I2 in S1.
  split; intro X.
  - rewrite X in S1. eapply nodup_fst; [exact (b_codes _ _ B2)|exact S1|exact S2].
  - rewrite X in S1. eapply nodup_snd; [exact (b_keys _ _ B2)|exact S1|exact S2].
Qed.
Lemma codes_defs t : codes (defs t) = map snd t.
Proof. induction t as [|[k d] t IH]; [reflexivity|]. cbn. unfold codes, defs in IH. destruct k; cbn; now rewrite IH. Qed.
Lemma codes_lemma st o l c : render_all o l (new_context st) = Ok c ->
  NoDup (codes (c_header c)) /\ Forall (fun d => (10 <= d)%Z) (codes (c_header c)) /\
  (forall d x, In (SAp d x) (c_body c) -> In d (codes (c_header c))).
Proof.
  intro H. destruct (kept_all st o _ _ _ H (new_book st)) as [B _].
  assert (C : codes (c_header c) = map snd (c_table c)).
  { rewrite (b_header _ _ B). unfold codes. rewrite flat_map_app. cbn. apply codes_defs. }
  rewrite C. split; [apply B|]. split; [|apply B]. apply Forall_map. eapply Forall_impl; [|exact (b_range _ _ B)]. cbn. intros. lia.
Qed.
Lemma latest_app {A} (f : stmt -> option A) d a b : latest f d (a ++ b) = latest f (latest f d b) a.
Proof. induction a as [|s a IH]; [reflexivity|]. cbn. destruct (f s); [reflexivity|exact IH]. Qed.
Lemma selection_statements st c : book st c -> current_selection (rev (statements c)) = current_selection (rev (c_body c)).
Proof.
  intro B. unfold statements. rewrite !rev_app_distr. cbn [rev app]. change (current_selection (SEof :: rev (c_body c) ++ rev (c_header c))) with (current_selection (rev (c_body c) ++ rev (c_header c))).
  unfold current_selection at 1. rewrite latest_app.
  assert (E : latest sets_selection 0%Z (rev (c_header c)) = 0%Z).
  { rewrite <- (app_nil_r (rev (c_header c))). apply (unselected (c_header c)). rewrite (b_header _ _ B). unfold base, defs. cbn. induction (c_table c) as [|[k d] t IH]; [reflexivity|]. cbn. destruct k; exact IH. }
  now rewrite E.
Qed.
Lemma same_code_file st o l1 cm1 f1 p1 pol1 l2 cm2 f2 p2 pol2 c1 c2 :
  render_all o (l1 ++ [mkItem cm1 (TFlash f1 p1 pol1)]) (new_context st) = Ok c1 ->
  render_all o (l2 ++ [mkItem cm2 (TFlash f2 p2 pol2)]) c1 = Ok c2 ->
  current_selection (rev (statements c1)) = current_selection (rev (statements c2)) <-> same_figure f1 f2.
Proof.
  intros H1 H2. destruct (kept_all st o _ _ _ H1 (new_book st)) as [B1 _]. destruct (kept_all st o _ _ _ H2 B1) as [B2 _].
  rewrite (selection_statements st c1 B1), (selection_statements st c2 B2). eapply same_code_lemma; eassumption.
Qed.
