(** Lemmas about files with aperture macros that are written after they have been read. *)
From Coq Require Import Lia.
From Verif Require Import PyBase QcLib NumModel NumSpec MacroModel SplitModel Regex GerberText GerberTextSpec GerberTextProofs GerberEval GerberEvalSpec GerberEvalProofs AmModel AmSpec AmRenderSpec AmWrite RoundFile
  MacroFileModel MacroFileSpec.
Open Scope list_scope.

(** ** What the macro statements hold after reading *)
Lemma teq_spec a b : reflect (a = b) (teq a b).
Proof. destruct (teq a b) eqn:E; constructor; [now apply teq_true|now apply teq_false]. Qed.
Definition texts_of (body : text) (dims : list Qc) : list text :=
  match read_macro body with
  | Ok i => match am_build i dims with Ok q => map prim_to_gerber q | Err _ => [] end
  | Err _ => []
  end.
Definition held (body : text) (uses : list (list Qc)) (p : list text) : list text := fold_left (fun _ d => texts_of body d) uses p.
Fixpoint finished (l : list stmt) : list stmt :=
  match l with
  | [] => []
  | SAM n body _ :: r => SAM n body (held body (made_from n r) []) :: finished r
  | s :: r => s :: finished r
  end.
Definition mem (n : text) (l : list text) : bool := existsb (teq n) l.
Fixpoint upd (seen : list text) (past l : list stmt) : list stmt :=
  match past with
  | [] => []
  | SAM n body p :: r => SAM n body (if mem n seen then p else held body (made_from n l) p) :: upd (n :: seen) r l
  | s :: r => s :: upd seen r l
  end.
Fixpoint buildable (past l : list stmt) : Prop :=
  match l with
  | [] => True
  | s :: r =>
      (match s with
       | SAD _ name mods => standard name = true \/
           exists dims rest body i q, mods = dims :: rest /\ macro_body name past = Some body /\ read_macro body = Ok i /\ am_build i dims = Ok q
       | _ => True
       end) /\ buildable (s :: past) r
  end.
Lemma buildable_ext : forall l p p', (forall n, macro_body n p' = macro_body n p) -> buildable p l -> buildable p' l.
Proof.
  induction l as [|s l IH]; intros p p' E B; [exact I|]. cbn [buildable] in *. destruct B as [A B]. split.
  - destruct s; auto. destruct A as [A|(dm & re & bo & i & q & M & Bo & R)]; [now left|]. right. exists dm, re, bo, i, q. rewrite E. auto.
  - apply (IH (s :: p)); [|exact B]. intros n. destruct s; cbn [macro_body]; rewrite ?E; auto.
Qed.
Lemma mem_cons n m l : mem n (m :: l) = teq n m || mem n l.
Proof. reflexivity. Qed.
Lemma upd_seen : forall past seen seen' l, (forall n, mem n seen = mem n seen') -> upd seen past l = upd seen' past l.
Proof.
  induction past as [|s past IH]; intros seen seen' l E; [reflexivity|].
  destruct s; cbn [upd]; try (f_equal; apply IH; exact E). rewrite E. f_equal. apply IH. intros n. rewrite !mem_cons. now rewrite E.
Qed.
(** Statements which are not looked for. *)
Lemma upd_made : forall past seen l l', (forall n, mem n seen = false -> made_from n l = made_from n l') -> upd seen past l = upd seen past l'.
Proof.
  induction past as [|s past IH]; intros seen l l' E; [reflexivity|].
  destruct s; cbn [upd]; try (f_equal; apply IH; exact E). f_equal.
  - destruct (mem name seen) eqn:M; [reflexivity|]. now rewrite (E _ M).
  - apply IH. intros n M. rewrite mem_cons in M. apply orb_false_iff in M as [_ M]. auto.
Qed.
Lemma teq_sym' a b : teq a b = teq b a.
Proof. destruct (teq_spec a b), (teq_spec b a); congruence. Qed.
Lemma upd_macro : forall past seen n b p l, upd seen past (SAM n b p :: l) = upd (n :: seen) past l.
Proof.
  induction past as [|s past IH]; intros seen n b p l; [reflexivity|].
  destruct s; cbn [upd]; try (f_equal; apply IH). f_equal.
  - f_equal. rewrite mem_cons. cbn [made_from]. rewrite (teq_sym' n). destruct (teq name n); cbn [orb]; [|reflexivity].
    destruct (mem name seen); reflexivity.
  - rewrite (IH (name :: seen)). apply upd_seen. intros x. rewrite !mem_cons. destruct (teq x n), (teq x name); reflexivity.
Qed.
Lemma mem_same n m l : teq n m = true -> mem n (m :: l) = true.
Proof. intros E. rewrite mem_cons, E. reflexivity. Qed.
Lemma rebuild_ok : forall past name dims rest body i q, macro_body name past = Some body -> read_macro body = Ok i -> am_build i dims = Ok q ->
  exists p', rebuild name (dims :: rest) past = Ok p' /\ (forall n, macro_body n p' = macro_body n past) /\
    forall seen l d, mem name seen = false -> upd seen p' l = upd seen past (SAD d name (dims :: rest) :: l).
Proof.
  induction past as [|s past IH]; intros name dims rest body i q B R M; [discriminate B|].
  assert (K : macro_body name past = Some body -> (forall p', (forall n, macro_body n p' = macro_body n past) -> forall n, macro_body n (s :: p') = macro_body n (s :: past)) ->
    (forall n b p, s <> SAM n b p) -> (rebuild name (dims :: rest) (s :: past) = do p' <- rebuild name (dims :: rest) past; Ok (s :: p')) ->
    (forall seen p l, upd seen (s :: p) l = s :: upd seen p l) ->
    exists p', rebuild name (dims :: rest) (s :: past) = Ok p' /\ (forall n, macro_body n p' = macro_body n (s :: past)) /\
    forall seen l d, mem name seen = false -> upd seen p' l = upd seen (s :: past) (SAD d name (dims :: rest) :: l)).
  { intros B' E _ F U. destruct (IH name dims rest body i q B' R M) as (p' & Rb & Mb & Up). exists (s :: p'). rewrite F, Rb. split; [reflexivity|]. split; [now apply E|].
    intros seen l d S. rewrite !U. f_equal. now apply Up. }
  destruct s; try (apply K; [exact B|intros p' E n; cbn [macro_body]; apply E|discriminate|reflexivity|reflexivity]). clear K.
  cbn [macro_body rebuild] in *. destruct (teq_spec name0 name) as [->|N].
  - injection B as ->. rewrite R. cbn [bind index nth_error]. rewrite M. cbn [bind]. eexists. split; [reflexivity|]. split; [intros n; cbn [macro_body]; reflexivity|].
    intros seen l d S. cbn [upd]. rewrite S. f_equal.
    + f_equal. cbn [made_from]. rewrite teq_refl. unfold held. cbn [fold_left]. f_equal. unfold texts_of. now rewrite R, M.
    + apply upd_made. intros n Mn. cbn [made_from]. destruct (teq_spec name n) as [->|]; [|reflexivity]. rewrite mem_same in Mn by apply teq_refl. discriminate Mn.
  - destruct (IH name dims rest body i q B R M) as (p' & Rb & Mb & Up). rewrite Rb. cbn [bind]. eexists. split; [reflexivity|].
    split; [intros n; cbn [macro_body]; now rewrite Mb|]. intros seen l d S. cbn [upd]. f_equal.
    + f_equal. destruct (mem name0 seen); [reflexivity|]. cbn [made_from]. rewrite (teq_sym' name). destruct (teq_spec name0 name); [contradiction|reflexivity].
    + apply Up. rewrite mem_cons, S, orb_false_r. rewrite teq_sym'. now destruct (teq_spec name0 name).
Qed.
Lemma upd_standard past seen d n mods l : standard n = true -> (forall m b p, In (SAM m b p) past -> standard m = false) ->
  upd seen past (SAD d n mods :: l) = upd seen past l.
Proof.
  intros St. revert seen. induction past as [|s past IH]; intros seen F; [reflexivity|].
  assert (F' : forall m b p, In (SAM m b p) past -> standard m = false) by (intros m b p Hi; apply (F m b p); now right).
  destruct s; cbn [upd]; try (f_equal; now apply IH). f_equal; [|now apply IH].
  f_equal. destruct (mem name seen); [reflexivity|]. cbn [made_from]. destruct mods as [|dims rest]; [reflexivity|].
  destruct (teq_spec n name) as [->|]; [|reflexivity]. rewrite (F name macro prims) in St by now left. discriminate St.
Qed.
Definition odd_names (l : list stmt) : Prop := forall m b p, In (SAM m b p) l -> standard m = false.
Lemma rebuild_names : forall past name mods p', rebuild name mods past = Ok p' -> odd_names past -> odd_names p'.
Proof.
  induction past as [|s past IH]; intros name mods p' E F; [discriminate E|].
  assert (F' : odd_names past) by (intros m b p Hi; apply (F m b p); now right).
  assert (K : (do p' <- rebuild name mods past; Ok (s :: p')) = Ok p' -> odd_names p').
  { destruct (rebuild name mods past) as [q|] eqn:Q; [|discriminate]. cbn [bind]. intros X. apply ok_inj in X. subst p'.
    intros m b p [->|Hi]; [apply (F m b p); now left|exact (IH _ _ _ Q F' m b p Hi)]. }
  destruct s; try (exact (K E)). cbn [rebuild] in E. destruct (teq name0 name); [|exact (K E)].
  destruct (read_macro macro); [|discriminate E]. cbn [bind] in E. destruct (index mods 0); [|discriminate E]. cbn [bind] in E.
  destruct (am_build a a0); [|discriminate E]. cbn [bind] in E. apply ok_inj in E. subst p'.
  intros m b p [X|Hi]; [injection X as -> -> <-; apply (F m b prims); now left|exact (F' m b p Hi)].
Qed.
Lemma built_ok : forall l past, buildable past l -> odd_names past -> odd_names l -> built_from past l = Ok (rev (upd [] past l) ++ finished l).
Proof.
  induction l as [|s l IH]; intros past B O1 O2.
  - cbn [built_from finished]. rewrite app_nil_r. f_equal. f_equal. clear. assert (G : forall seen, past = upd seen past []).
    { induction past as [|s past IH]; intros seen; [reflexivity|]. destruct s; cbn [upd]; f_equal; auto. f_equal. now destruct (mem name seen). } apply G.
  - cbn [buildable] in B. destruct B as [A B]. assert (O3 : odd_names l) by (intros m b p Hi; apply (O2 m b p); now right).
    assert (K : (forall n b p, s <> SAM n b p) -> (forall d n m, s <> SAD d n m) -> built_from past (s :: l) = Ok (rev (upd [] past (s :: l)) ++ finished (s :: l))).
    { intros N1 N2. assert (E1 : built_from past (s :: l) = built_from (s :: past) l) by (destruct s; try reflexivity; [now destruct (N2 d shape mods)|now destruct (N1 name macro prims)]).
      rewrite E1, IH; [|exact B| |exact O3].
      - assert (E2 : upd [] (s :: past) l = s :: upd [] past l) by (destruct s; try reflexivity; now destruct (N1 name macro prims)).
        assert (E3 : upd [] past (s :: l) = upd [] past l).
        { apply upd_made. intros n _. destruct s; try reflexivity; [now destruct (N2 d shape mods)|now destruct (N1 name macro prims)]. }
        assert (E4 : finished (s :: l) = s :: finished l) by (destruct s; try reflexivity; now destruct (N1 name macro prims)).
        rewrite E2, E3, E4. cbn [rev]. now rewrite <- app_assoc.
      - intros m b p [X|Hi]; [now destruct (N1 m b p)|exact (O1 m b p Hi)]. }
    destruct s; try (apply K; discriminate); clear K.
    + cbn [built_from]. destruct (standard shape) eqn:St.
      * rewrite IH; [|exact B| |exact O3].
        -- cbn [upd finished rev]. rewrite <- app_assoc. rewrite (upd_standard past [] d shape mods l St O1). reflexivity.
        -- intros m b p [X|Hi]; [discriminate X|exact (O1 m b p Hi)].
      * destruct A as [A|(dims & rest & body & i & q & -> & Mb & R & Q)]; [discriminate A|].
        destruct (rebuild_ok past shape dims rest body i q Mb R Q) as (p' & Rb & Mb' & Up). rewrite Rb. cbn [bind].
        rewrite IH; [| | |exact O3].
        -- cbn [upd finished rev]. rewrite <- app_assoc. rewrite (Up [] l d eq_refl). reflexivity.
        -- eapply buildable_ext; [|exact B]. intros n. cbn [macro_body]. apply Mb'.
        -- intros m b p [X|Hi]; [discriminate X|exact (rebuild_names _ _ _ _ Rb O1 m b p Hi)].
    + cbn [built_from]. rewrite IH; [| | |exact O3].
      * cbn [upd finished rev mem existsb]. rewrite <- app_assoc. rewrite upd_macro. reflexivity.
      * eapply buildable_ext; [|exact B]. reflexivity.
      * intros m b p [X|Hi]; [injection X as <- <- _; apply (O2 name macro prims); now left|exact (O1 m b p Hi)].
Qed.

(** ** The statements kept: operations are filled in *)
Definition kept (s s' : stmt) : Prop :=
  match s with
  | SCoord fn x y i j op => s' = s \/ exists o, In o operations /\ s' = SCoord fn x y i j (Some o)
  | _ => s' = s
  end.
Lemma kept_made n : forall l k, Forall2 kept l k -> made_from n k = made_from n l.
Proof.
  induction 1 as [|s s' l k K _ IH]; [reflexivity|]. destruct s; cbn [kept] in K; subst; cbn [made_from]; rewrite ?IH; auto.
  destruct K as [->|(o & _ & ->)]; cbn [made_from]; congruence.
Qed.
Lemma kept_shapes : forall l k, Forall2 kept l k -> one_shape_each l -> one_shape_each k.
Proof.
  induction 1 as [|s s' l k K F IH]; [auto|]. destruct s; cbn [kept] in K; subst; cbn [one_shape_each]; auto.
  - intros [A B]. rewrite (kept_made _ _ _ F). auto.
  - destruct K as [->|(o & _ & ->)]; cbn [one_shape_each]; exact IH.
Qed.
Lemma kept_format : forall l k, Forall2 kept l k -> format_before_coords l -> format_before_coords k.
Proof.
  induction 1 as [|s s' l k K F IH]; [auto|]. destruct s; cbn [kept] in K; subst; cbn [format_before_coords]; auto. intros [].
Qed.
Lemma kept_writable st : forall l k, Forall2 kept l k -> Forall (rest_writable st) l -> Forall (rest_writable st) k.
Proof.
  induction 1 as [|s s' l k K F IH]; intros W; [constructor|]. inversion W as [|? ? W1 W2]; subst. constructor; [|auto].
  destruct s; cbn [kept] in K; subst; auto. destruct K as [->|(o & Ho & ->)]; [exact W1|]. cbn [rest_writable] in *.
  inversion W1 as [s W'| | | | |]; subst. inversion W'; subst. constructor. constructor; auto. discriminate.
Qed.
Lemma evaluate_kept fc past st s st' s' : inv fc past st -> evaluate fc st s = Ok (st', s') ->
  (forall fn x y i j op, s = SCoord fn x y i j op -> from_list operations op) -> In (g_op st) operations ->
  kept s s' /\ filled past s s' /\ In (g_op st') operations.
Proof.
  intros J E W O.
  assert (P : (forall fn x y i j op, s <> SCoord fn x y i j op) -> kept s s' /\ filled past s s' /\ In (g_op st') operations).
  { intros N. assert (Q : s' = s /\ g_op st' = g_op st).
    { destruct s; cbn [evaluate] in E; try (now destruct (N func x y i j op));
        try (apply ok_inj in E; injection E as <- <-; split; [reflexivity|]; try reflexivity).
      all: try (destruct (evaluate_param st _) as [s1|] eqn:Ep; [|discriminate E]; cbn [bind] in E; apply ok_inj in E; injection E as <- <-; split; [reflexivity|];
        cbn [evaluate_param] in Ep; try (apply ok_inj in Ep; subst s1; reflexivity)).
      - match type of Ep with (if ?b then _ else _) = _ => destruct b end; apply ok_inj in Ep; subst s1; reflexivity.
      - unfold define_aperture in Ep. destruct (build_aperture _ _ _); [|discriminate Ep]. cbn [bind] in Ep. apply ok_inj in Ep. subst s1. reflexivity.
      - destruct (read_macro _); [|discriminate Ep]. apply ok_inj in Ep. subst s1. reflexivity.
      - unfold evaluate_region_mode. destruct (g_region st), m; try reflexivity. destruct (g_cur st) as [[|]|]; reflexivity. }
    destruct Q as [-> ->]. destruct s; try (now destruct (N func x y i j op)); repeat split; auto. }
  destruct s; try (apply P; discriminate). clear P. cbn [evaluate] in E. rewrite evaluate_coord_eq in E. cbv zeta in E. rewrite only_function_mode in E.
  cbn [kept filled]. destruct (mode_only (SCoord func x y i j op)) eqn:MO.
  - apply ok_inj in E. injection E as <- <-. rewrite set_function_op. auto.
  - destruct (operate fc _ _ _ i j) as [st3|] eqn:Op; [|discriminate E]. cbn [bind] in E. apply ok_inj in E. injection E as <- <-.
    assert (O2 : In (g_op (set_op op (set_function func st))) operations).
    { destruct op as [o|]; cbn [set_op]; [exact (W _ _ _ _ _ _ eq_refl)|]. now rewrite set_function_op. }
    assert (O3 : g_op st3 = g_op (set_op op (set_function func st))).
    { revert Op. generalize (set_op op (set_function func st)). intros q Op. unfold operate in Op. repeat destruct (tmem _ _).
      - unfold draw in Op. destruct (g_interp q), (g_region q); try (destruct (zget _ _); [|discriminate Op]); apply ok_inj in Op; subst st3; reflexivity.
      - apply ok_inj in Op. subst st3. unfold move. destruct (g_region q); [|reflexivity]. destruct (g_cur q) as [[|? [|]]|]; reflexivity.
      - unfold flash in Op. destruct (zget _ _); [|discriminate Op]. destruct (fetch _ _); [|discriminate Op]. apply ok_inj in Op. subst st3. reflexivity.
      - apply ok_inj in Op. now subst st3. }
    split; [right; eauto|]. split.
    + exists x, y. eexists. split; [reflexivity|]. split; [now left|]. split; [now left|]. destruct op as [o|]; [now left|]. right. split; [reflexivity|].
      cbn [set_op]. rewrite set_function_op. now rewrite (i_op _ _ _ J).
    + cbn [g_op with_xy]. now rewrite O3.
Qed.
Lemma evaluate_all_kept fc : forall l past st st' k, inv fc past st -> evaluate_all fc st l = Ok (st', k) ->
  Forall (fun s => forall fn x y i j op, s = SCoord fn x y i j op -> from_list operations op) l -> In (g_op st) operations ->
  Forall2 kept l k /\ filled_list past l k.
Proof.
  induction l as [|s l IH]; intros past st st' k J E W O; cbn [evaluate_all] in E.
  - apply ok_inj in E. injection E as _ <-. split; constructor.
  - destruct (evaluate fc st s) as [[st1 s1]|] eqn:E1; [|discriminate E]. cbn [bind] in E.
    destruct (evaluate_all fc st1 l) as [[st2 k2]|] eqn:E2; [|discriminate E]. cbn [bind] in E. apply ok_inj in E. injection E as <- <-.
    inversion W as [|? ? W1 W2]; subst. destruct (evaluate_kept _ _ _ _ _ _ J E1 W1 O) as (K & F & O1).
    destruct (evaluate_step _ _ _ _ _ _ J E1) as (J1 & _). destruct (IH _ _ _ _ J1 E2 W2 O1) as [K2 F2]. split; constructor; auto.
Qed.

(** ** Macros without primitives *)
Definition star_count (t : text) : nat := count_occ Ascii.ascii_dec t "*"%char.
Fixpoint min_stars (r : re) : nat :=
  match r with
  | Eps => 0 | Lit t => star_count t | Cls _ => 0 | Star _ => 0 | Opt _ => 0
  | Seq a b => min_stars a + min_stars b
  | Alt a b => Nat.min (min_stars a) (min_stars b)
  | Grp _ r => min_stars r
  end%nat.
Lemma star_app a b : star_count (a ++ b) = (star_count a + star_count b)%nat.
Proof. apply count_occ_app. Qed.
Lemma min_stars_ok r : forall s u cs t, In (u, cs, t) (rm r s) -> (min_stars r <= star_count u)%nat.
Proof.
  induction r as [|l|p|p|r IH|a IHa b IHb|a IHa b IHb|n r IH]; intros s u cs t Hi; cbn [min_stars]; try lia.
  - cbn [rm] in Hi. destruct (strip_prefix l s); [|destruct Hi]. destruct Hi as [Hi|[]]. injection Hi as <- _ _. lia.
  - cbn [rm] in Hi. apply in_flat_map in Hi as ([[u1 cs1] t1] & I1 & Hi). apply in_map_iff in Hi as ([[u2 cs2] t2] & E & I2).
    injection E as <- _ _. rewrite star_app. apply IHa in I1. apply IHb in I2. lia.
  - cbn [rm] in Hi. apply in_app_or in Hi as [Hi|Hi]; [apply IHa in Hi|apply IHb in Hi]; lia.
  - cbn [rm] in Hi. apply in_map_iff in Hi as ([[u2 cs2] t2] & E & I2). injection E as <- _ _. now apply IH in I2.
Qed.
Lemma name_stars n : macro_name n -> star_count n = 0%nat.
Proof.
  intros H. apply count_occ_not_In. intros C. destruct n as [|c n]; [destruct C|]. destruct H as (H1 & _ & H2).
  destruct C as [->|C]; [cbn in H1|rewrite Forall_forall in H2; specialize (H2 _ C); cbn in H2]; intuition discriminate.
Qed.
Lemma empty_macro_step inc st n : macro_name n -> parse_step inc st (T "%AM" ++ n ++ T "*%") = Some (Ok ([SUnk (T "%AM" ++ n ++ T "*%")], st, [])).
Proof.
  intros H. pose proof (name_stars n H) as N.
  assert (M : re_match (param_wrap AM) (T "%AM" ++ n ++ T "*%") = None).
  { unfold re_match. destruct (rm (param_wrap AM) (T "%AM" ++ n ++ T "*%")) as [|[[u cs] t] l] eqn:E; [reflexivity|].
    assert (Hi : In (u, cs, t) (rm (param_wrap AM) (T "%AM" ++ n ++ T "*%"))) by (rewrite E; now left).
    pose proof (min_stars_ok _ _ _ _ _ Hi) as A. apply rm_used in Hi. apply (f_equal star_count) in Hi. rewrite !star_app, N in Hi.
    change (min_stars (param_wrap AM)) with 2%nat in A. change (star_count (T "%AM")) with 0%nat in Hi. change (star_count (T "*%")) with 1%nat in Hi. lia. }
  assert (C : char_in "*"%char (tl (T "%AM" ++ n ++ T "*%")) = true).
  { cbn [T list_ascii_of_string app tl]. unfold char_in. cbn [existsb]. rewrite existsb_app. cbn. now rewrite !Bool.orb_true_r. }
  unfold parse_step. cbn [T list_ascii_of_string app tl] in *. change (ceq "%" "*") with false. cbv iota.
  set (s := "%"%char :: "A"%char :: "M"%char :: _) in *. change (re_match COORD_STMT s) with (@None (caps * text)).
  change (re_match APERTURE_STMT s) with (@None (caps * text)). cbv iota.
  change (match_one_from_many PARAM_STMT s) with (match_one_from_many (param_wrap AM :: map param_wrap [AS; IF_; IN; IP; IR; MI; OF; SF; LN]) s).
  cbn [match_one_from_many]. rewrite M.
  change (match_one_from_many (map param_wrap [AS; IF_; IN; IP; IR; MI; OF; SF; LN]) s) with (@None (caps * text)). cbv iota.
  change (re_match REGION_MODE_STMT s) with (@None (caps * text)). change (re_match QUAD_MODE_STMT s) with (@None (caps * text)).
  change (re_match COMMENT_STMT s) with (@None (caps * text)). change (re_match DEPRECATED_UNIT s) with (@None (caps * text)).
  change (re_match DEPRECATED_FORMAT s) with (@None (caps * text)). change (re_match EOF_STMT s) with (@None (caps * text)). cbv iota. now rewrite C.
Qed.
Lemma empty_macro_shape n : macro_name n -> cmd_shape (T "%AM" ++ n ++ T "*%").
Proof.
  intros H. left. apply (free_shape "AM"); [reflexivity|]. apply Forall_forall. intros x Hx C. apply name_solid in H. rewrite forallb_forall in H. specialize (H _ Hx).
  cbn in C. destruct C as [<-|[<-|[<-|[]]]]; discriminate H.
Qed.

(** ** Writing what was read and reading it again *)
Inductive reread : list stmt -> list stmt -> Prop :=
| R_nil : reread [] []
| R_unused n b p u k l : made_from n k = [] -> reread k l -> reread (SAM n b p :: k) (SUnk u :: l)
| R_macro n b p m i j ps k l : read_macro b = Ok i -> Forall (fun d => am_build i d = Ok ps) (made_from n k) ->
    read_macro m = Ok j -> (forall v, am_build j v = Ok ps) -> reread k l -> reread (SAM n b p :: k) (SAM n m [] :: l)
| R_same s k l : (forall n b p, s <> SAM n b p) -> reread k l -> reread (s :: k) (s :: l).
Lemma held_one body i ps : read_macro body = Ok i -> forall uses p, uses <> [] -> Forall (fun d => am_build i d = Ok ps) uses -> held body uses p = map prim_to_gerber ps.
Proof.
  intros R. assert (E : forall d, am_build i d = Ok ps -> texts_of body d = map prim_to_gerber ps) by (intros d E; unfold texts_of; now rewrite R, E).
  induction uses as [|d uses IH]; intros p N F; [contradiction|]. inversion F as [|? ? F1 F2]; subst. unfold held. cbn [fold_left]. fold (held body uses (texts_of body d)).
  destruct uses as [|d2 uses]; [cbn; now apply E|]. apply IH; [discriminate|exact F2].
Qed.
Lemma step_empty_line inc st hdr r : parse_cmds inc st [] (fst (split_loop [] hdr (nl :: r))) = parse_cmds inc st [] (fst (split_loop [] hdr r)).
Proof.
  cbn [split_loop]. change (ceq nl "%") with false. change (is_nl nl) with true. cbn [andb]. cbv iota. destruct hdr; cbn [negb andb]; destruct (split_loop [] _ r); reflexivity.
Qed.
Lemma write_reread st : announceable st -> forall k, Forall (rest_writable st) k -> one_shape_each k ->
  exists t l, write_file st (finished k) = Ok t /\ reread k l /\
    forall inc st' hdr, GerberTextProofs.ready st st' k -> exists st'', parse_cmds inc st' [] (fst (split_loop [] hdr t)) = Ok (l, st'').
Proof.
  intros Hs. induction k as [|s k IH]; intros W O.
  - exists [], []. repeat split; [constructor|]. intros. eexists. reflexivity.
  - inversion W as [|? ? W1 W2]; subst.
    assert (D : (exists n b p, s = SAM n b p) \/ (forall n b p, s <> SAM n b p)) by (destruct s; try (right; discriminate); left; eauto).
    destruct D as [(n & b & p & ->)|N].
    + cbn [one_shape_each] in O. destruct O as [O1 O]. destruct (IH W2 O) as (t & l & Wr & Rr & Pa). destruct (made_from n k) as [|u0 us] eqn:U0.
      { exists ((T "%AM" ++ n ++ T "*%") ++ nl :: t), (SUnk (T "%AM" ++ n ++ T "*%") :: l). split; [|split; [now constructor|]].
        - cbn [finished write_file to_gerber]. rewrite U0. cbn [held fold_left List.concat bind]. rewrite Wr. reflexivity.
        - intros inc st' hdr Rd. destruct (split_command _ hdr (empty_macro_shape n W1)) as [hdr' Hd]. rewrite Hd. cbn [fst].
          rewrite (parse_one_cmd _ _ _ _ _ _ (empty_macro_shape n W1) (empty_macro_step inc st' n W1)).
          destruct (Pa inc st' hdr') as [st'' ->]; [destruct Rd as [Rd|Rd]; [now left|now right]|]. eexists. reflexivity. }
      destruct O1 as [O1|(i & ps & R & NE & PW & F)]; [discriminate O1|]. rewrite <- U0 in F. assert (U : made_from n k <> []) by (rewrite U0; discriminate). clear U0 u0 us.
      destruct (macro_statement_any n ps W1 NE PW) as (m & j & Rm & Bm & Pm).
      assert (Wm : to_gerber st (SAM n b (held b (made_from n k) [])) = Ok (am_to_gerber n ps)).
      { cbn [to_gerber]. rewrite (held_one b i ps R _ _ U F). reflexivity. }
      exists (am_to_gerber n ps ++ nl :: t), (SAM n m [] :: l). split; [cbn [finished write_file]; rewrite Wm; cbn [bind]; now rewrite Wr|].
      split; [econstructor; eauto|]. intros inc st' hdr Rd. rewrite Pm, step_empty_line. destruct (Pa inc st' false) as [st'' ->]; [|eexists; reflexivity].
      destruct Rd as [Rd|Rd]; [now left|now right].
    + assert (W1' : line_writable st s) by (destruct s; auto; now destruct (N name macro prims)).
      assert (O' : one_shape_each k) by (destruct s; auto; now destruct (N name macro prims)).
      destruct (IH W2 O') as (t & l & Wr & Rr & Pa).
      assert (E : finished (s :: k) = s :: finished k) by (destruct s; auto; now destruct (N name macro prims)).
      destruct (step_line (fun _ _ => Err IOError) st st s Hs W1') as (u & Eu & _); [left; split; reflexivity|].
      exists (u ++ nl :: t), (s :: l). split; [rewrite E; cbn [write_file]; rewrite Eu; cbn [bind]; now rewrite Wr|]. split; [now constructor|].
      intros inc st' hdr Rd. destruct (step_line inc st st' s Hs W1' (ready_same _ _ _ _ Rd)) as (u' & Eu' & P & C).
      rewrite Eu in Eu'. apply ok_inj in Eu'. subst u'. destruct (split_command u hdr C) as [hdr' Hd]. rewrite Hd. cbn [fst].
      rewrite (parse_one_cmd _ _ _ _ _ _ C P). destruct (Pa inc (after st' s) hdr') as [st'' ->]; [now apply (ready_next st st' s)|]. eexists. reflexivity.
Qed.

(** ** Evaluating the statements that were read again *)
Definition swap (h : store) (m : list (text * list instr)) (st : gst) : gst := with_store h (with_macros m st).
Definition macros_rel (m m' : list (text * list instr)) (k : list stmt) : Prop := forall n i, tget n m = Some i ->
  Forall (fun d => exists j ps, tget n m' = Some j /\ am_build i d = Ok ps /\ am_build j d = Ok ps) (made_from n k).
Lemma same_refl o : same_obj o o.
Proof. repeat split. now left. Qed.
Lemma fetch_same : forall h h' l o, Forall2 same_obj h h' -> fetch h l = Some o -> exists o', fetch h' l = Some o' /\ same_obj o o'.
Proof.
  intros h h' l o F. revert l. induction F as [|a b h h' S F IH]; intros [|l] E; try discriminate E; cbn in *.
  - injection E as <-. eauto.
  - auto.
Qed.
Lemma same_length h h' : Forall2 same_obj h h' -> List.length h' = List.length h.
Proof. induction 1; cbn; auto. Qed.
Lemma define_swap st d name mods st' h m k : define_aperture st d name mods = Ok st' -> Forall2 same_obj (g_store st) h -> macros_rel (g_macros st) m (SAD d name mods :: k) ->
  exists h', define_aperture (swap h m st) d name mods = Ok (swap h' m st') /\ Forall2 same_obj (g_store st') h' /\ g_macros st' = g_macros st.
Proof.
  intros E F M. unfold define_aperture in *. destruct (build_aperture (g_macros st) name mods) as [sh|] eqn:B; [|discriminate E]. cbn [bind alloc] in E.
  apply ok_inj in E. subst st'.
  assert (X : exists sh', build_aperture m name mods = Ok sh' /\ same_shape sh sh').
  { unfold build_aperture in *. destruct (teq name (T "C")); [exists sh; split; [exact B|now left]|]. destruct (teq name (T "R")); [exists sh; split; [exact B|now left]|].
    destruct (teq name (T "O")); [exists sh; split; [exact B|now left]|]. destruct (teq name (T "P")); [exists sh; split; [exact B|now left]|].
    destruct (tget name (g_macros st)) as [i|] eqn:G; [|discriminate B]. pose proof (M name i G) as Fj.
    destruct mods as [|dims rest]; [discriminate B|]. cbn [index nth_error bind] in *. cbn [made_from] in Fj. rewrite teq_refl in Fj. inversion Fj as [|? ? (j & ps & Gj & A1 & A2) _]; subst.
    rewrite Gj.
    unfold am_build in A1, A2. destruct (eval_macro [] i (PSeq dims)) as [[l1 q1]|]; [|discriminate A1]. destruct (eval_macro [] j (PSeq dims)) as [[l2 q2]|]; [|discriminate A2].
    cbn [bind fst] in *. apply ok_inj in B. subst sh. eexists. split; [reflexivity|]. right. exists l1, l2, ps. repeat split; assumption. }
  destruct X as (sh' & Bs & S). exists (h ++ [mkObj sh' None Dark (p_units (g_set st))]). cbn [swap with_store with_macros g_macros g_store g_set g_aps]. rewrite Bs. cbn [bind alloc].
  split; [|split; [|reflexivity]].
  - cbn [g_aps]. unfold swap, with_store, with_macros, with_aps. cbn. do 4 f_equal. now apply same_length.
  - cbn. apply Forall2_app; [exact F|]. constructor; [|constructor]. now repeat split.
Qed.
Lemma operate_swap fc st x y i j st' h m : operate fc st x y i j = Ok st' -> Forall2 same_obj (g_store st) h ->
  exists h', operate fc (swap h m st) x y i j = Ok (swap h' m st') /\ Forall2 same_obj (g_store st') h' /\ g_macros st' = g_macros st.
Proof.
  intros E F. unfold operate in *. change (g_op (swap h m st)) with (g_op st). destruct (tmem (g_op st) ["D01"; "D1"]%string).
  { exists h. unfold draw in *. cbn [swap with_store with_macros g_x g_y g_lpol g_set g_interp g_region g_ap g_aps g_dir g_quad].
    change (find_center fc (mkG (g_set st) (g_prims st) (g_aps st) m (g_cur st) (g_x st) (g_y st) (g_op st) (g_ap st) (g_interp st) (g_dir st) (g_ipol st) (g_lpol st) (g_region st) (g_quad st) h))
      with (find_center fc st).
    destruct (g_interp st), (g_region st); try (destruct (zget _ _); [|discriminate E]); apply ok_inj in E; subst st'; (split; [reflexivity|]; split; [exact F|reflexivity]). }
  destruct (tmem (g_op st) ["D02"; "D2"]%string).
  { exists h. apply ok_inj in E. subst st'. unfold move. change (g_region (swap h m st)) with (g_region st). change (g_cur (swap h m st)) with (g_cur st).
    destruct (g_region st); [|split; [reflexivity|now split]]. destruct (g_cur st) as [[|? [|]]|]; (split; [reflexivity|now split]). }
  destruct (tmem (g_op st) ["D03"; "D3"]%string).
  - destruct (zget (g_ap st) (g_aps st)) as [l|] eqn:Z; [|unfold flash in E; rewrite Z in E; discriminate E].
    destruct (fetch (g_store st) l) as [o|] eqn:Fe; [|unfold flash in E; rewrite Z, Fe in E; discriminate E].
    destruct (fetch_same _ _ _ _ F Fe) as (o' & Fe' & S). rewrite (flash_eq _ _ _ _ _ Z Fe) in E. apply ok_inj in E. subst st'.
    rewrite (flash_eq (swap h m st) x y l o' Z Fe'). eexists. split; [|split; [|reflexivity]].
    + unfold swap, append, with_store, with_macros. cbn. do 3 f_equal. rewrite (same_length _ _ F). reflexivity.
    + cbn. apply Forall2_app; [exact F|]. constructor; [|constructor]. destruct S as (S & _). repeat split. exact S.
  - exists h. apply ok_inj in E. subst st'. split; [reflexivity|now split].
Qed.
Lemma evaluate_swap fc st s st' s' h m k : (forall n b p, s <> SAM n b p) -> evaluate fc st s = Ok (st', s') -> Forall2 same_obj (g_store st) h -> macros_rel (g_macros st) m (s :: k) ->
  exists h', evaluate fc (swap h m st) s = Ok (swap h' m st', s') /\ Forall2 same_obj (g_store st') h' /\ g_macros st' = g_macros st.
Proof.
  intros N E F M.
  destruct s; cbn [evaluate evaluate_param bind] in *; try (now destruct (N name macro prims));
    try (apply ok_inj in E; injection E as <- <-; exists h; split; [reflexivity|now split]).
  - match type of E with context [if ?b then _ else _] => destruct b end; cbn [bind] in *; apply ok_inj in E; injection E as <- <-; exists h; (split; [reflexivity|now split]).
  - destruct (define_aperture st d shape mods) as [st1|] eqn:D; [|discriminate E]. cbn [bind] in E. apply ok_inj in E. injection E as <- <-.
    destruct (define_swap _ _ _ _ _ _ _ _ D F M) as (h' & -> & R). exists h'. cbn [bind]. now split.
  - rewrite evaluate_coord_eq in *. cbv zeta in *.
    assert (S1 : set_function func (swap h m st) = swap h m (set_function func st)) by (unfold set_function; destruct (otmem func _); [reflexivity|]; destruct (otmem func _); reflexivity).
    assert (F1 : g_store (set_function func st) = g_store st) by (unfold set_function; destruct (otmem func _); [reflexivity|]; destruct (otmem func _); reflexivity).
    assert (M1 : g_macros (set_function func st) = g_macros st) by (unfold set_function; destruct (otmem func _); [reflexivity|]; destruct (otmem func _); reflexivity).
    rewrite S1. destruct (only_function func x y i j op).
    + apply ok_inj in E. injection E as <- <-. exists h. split; [reflexivity|]. rewrite F1. now split.
    + assert (S2 : set_op op (swap h m (set_function func st)) = swap h m (set_op op (set_function func st))) by (now destruct op). rewrite S2.
      destruct (operate fc (set_op op (set_function func st)) _ _ i j) as [st3|] eqn:O; [|discriminate E]. cbn [bind] in E. apply ok_inj in E. injection E as <- <-.
      destruct (operate_swap _ _ _ _ _ _ _ h m O) as (h' & O' & R1 & R2).
      { destruct op; cbn [set_op]; [cbn [with_op g_store]|]; now rewrite F1. }
      change (g_x (swap h m st)) with (g_x st). change (g_y (swap h m st)) with (g_y st). rewrite O'. exists h'. cbn [bind]. split; [reflexivity|]. split; [exact R1|].
      cbn [with_xy g_macros]. rewrite R2. destruct op; exact M1.
  - apply ok_inj in E. injection E as <- <-. exists h. unfold evaluate_region_mode. change (g_region (swap h m st)) with (g_region st). change (g_cur (swap h m st)) with (g_cur st).
    destruct (g_region st), m0; try (split; [reflexivity|now split]). destruct (g_cur st) as [[|]|]; (split; [reflexivity|now split]).
Qed.
Lemma made_skip n s k : (forall m b p, s <> SAM m b p) -> forall P, Forall P (made_from n (s :: k)) -> Forall P (made_from n k).
Proof.
  intros N P F. destruct s; try exact F; [|now destruct (N name macro prims)]. cbn [made_from] in F. destruct mods as [|dims rest]; [exact F|].
  destruct (teq shape n); [now inversion F|exact F].
Qed.
Lemma evaluate_reread fc : forall k l, reread k l -> forall st g kk h m, evaluate_all fc st k = Ok (g, kk) -> Forall2 same_obj (g_store st) h -> macros_rel (g_macros st) m k ->
  exists h' m' ll, evaluate_all fc (swap h m st) l = Ok (swap h' m' g, ll) /\ Forall2 same_obj (g_store g) h'.
Proof.
  induction 1 as [|n b p u k l U Rr IH|n b p mc i j ps k l R1 F1 R2 F2 Rr IH|s k l N Rr IH]; intros st g kk h m E F M.
  - cbn [evaluate_all] in *. apply ok_inj in E. injection E as <- <-. exists h, m, []. now split.
  - cbn [evaluate_all evaluate evaluate_param bind] in *. destruct (read_macro b) as [i|] eqn:R1; [|discriminate E]. cbn [bind] in *.
    destruct (evaluate_all fc (with_macros ((n, i) :: g_macros st) st) k) as [[g' k2]|] eqn:E2; [|discriminate E]. cbn [bind] in E. apply ok_inj in E. injection E as <- <-.
    destruct (IH _ _ _ h m E2 F) as (h' & m' & ll & E3 & F3).
    + intros x i' G. cbn [with_macros g_macros tget] in G. destruct (teq_spec n x) as [->|Nx]; [rewrite U; constructor|].
      pose proof (M x i' G) as Fj. cbn [made_from] in Fj. destruct (teq_spec n x); [contradiction|exact Fj].
    + exists h', m'. change (swap h m st) with (swap h m (with_macros ((n, i) :: g_macros st) st)). rewrite E3. cbn [bind]. eexists. split; [reflexivity|exact F3].
  - cbn [evaluate_all evaluate evaluate_param bind] in *. rewrite R1 in E. rewrite R2. cbn [bind] in *.
    destruct (evaluate_all fc (with_macros ((n, i) :: g_macros st) st) k) as [[g' k2]|] eqn:E2; [|discriminate E]. cbn [bind] in E. apply ok_inj in E. injection E as <- <-.
    destruct (IH _ _ _ h ((n, j) :: m) E2 F) as (h' & m' & ll & E3 & F3).
    + intros x i' G. cbn [with_macros g_macros tget] in G. cbn [tget]. destruct (teq_spec n x) as [->|Nx].
      * injection G as <-. eapply Forall_impl; [|exact F1]. intros d A. exists j, ps. auto.
      * pose proof (M x i' G) as Fj. cbn [made_from] in Fj. destruct (teq_spec n x); [contradiction|exact Fj].
    + exists h', m'. change (with_macros ((n, j) :: g_macros (swap h m st)) (swap h m st)) with (swap h ((n, j) :: m) (with_macros ((n, i) :: g_macros st) st)).
      rewrite E3. cbn [bind]. eexists. split; [reflexivity|exact F3].
  - cbn [evaluate_all] in *. destruct (evaluate fc st s) as [[st1 s1]|] eqn:E1; [|discriminate E]. cbn [bind] in E.
    destruct (evaluate_all fc st1 k) as [[g' k2]|] eqn:E2; [|discriminate E]. cbn [bind] in E. apply ok_inj in E. injection E as <- <-.
    destruct (evaluate_swap _ _ _ _ _ _ _ _ N E1 F M) as (h1 & E1' & F1 & M1). rewrite E1'. cbn [bind].
    destruct (IH _ _ _ h1 m E2 F1) as (h' & m' & ll & E3 & F3).
    + rewrite M1. intros x i' G. pose proof (M x i' G) as Fj. now apply (made_skip x s k N).
    + rewrite E3. cbn [bind]. do 3 eexists. split; [reflexivity|exact F3].
Qed.

(** ** The macros can be built *)
Lemma shapes_buildable : forall k past, definitions_ok past k -> one_shape_each k ->
  (forall n b, macro_body n past = Some b -> Forall (fun d => exists i ps, read_macro b = Ok i /\ am_build i d = Ok ps) (made_from n k)) -> buildable past k.
Proof.
  induction k as [|s k IH]; intros past D O M; [exact I|]. cbn [definitions_ok] in D. destruct D as [D1 D2]. cbn [buildable].
  assert (D : (exists n b p, s = SAM n b p) \/ (forall n b p, s <> SAM n b p)) by (destruct s; try (right; discriminate); left; eauto).
  destruct D as [(n & b & p & ->)|N].
  - split; [exact I|]. cbn [one_shape_each] in O. destruct O as [O1 O]. apply IH; auto.
    intros x b' Mb. cbn [macro_body] in Mb. destruct (teq_spec n x) as [->|Nx].
    { injection Mb as <-. destruct O1 as [Z|(i & ps & R & _ & _ & F)]; [rewrite Z; constructor|]. eapply Forall_impl; [|exact F]. intros d A. exists i, ps. split; assumption. }
    pose proof (M x b' Mb) as F'. cbn [made_from] in F'. destruct (teq_spec n x); [contradiction|exact F'].
  - split.
    + destruct s; auto. destruct (standard shape) eqn:St; [now left|]. right. destruct D1 as (dims & rest & sh & -> & Df). unfold definition in Df. unfold standard in St.
      apply orb_false_iff in St as [St S4]. apply orb_false_iff in St as [St S3]. apply orb_false_iff in St as [S1 S2]. rewrite S1, S2, S3, S4 in Df.
      destruct (macro_body shape past) as [body|] eqn:Mb; [|discriminate Df]. pose proof (M _ _ Mb) as F. cbn [made_from] in F. rewrite teq_refl in F.
      inversion F as [|? ? (i & ps & R & F1) _]; subst. exists dims, rest, body, i, ps. auto.
    + apply IH; [exact D2|destruct s; auto; now destruct (N name macro prims)|]. intros n b Mb.
      assert (E : macro_body n (s :: past) = macro_body n past) by (destruct s; auto; now destruct (N name macro prims)). rewrite E in Mb.
      pose proof (M n b Mb) as F. now apply (made_skip n s k N).
Qed.
Lemma odd_writable st k : Forall (rest_writable st) k -> odd_names k.
Proof.
  intros W m b p Hi. rewrite Forall_forall in W. specialize (W _ Hi). cbn [rest_writable] in W. destruct m as [|c [|c2 m]]; [destruct W|destruct W as (_ & N & _); contradiction|].
  unfold standard. rewrite !(proj2 (teq_false _ _)) by (cbn; congruence). reflexivity.
Qed.

(** ** The file written again *)
Lemma rewritten_lemma fc fs data l st ms : parse_text fs data = Ok (l, st) -> announceable st -> Forall (rest_writable st) l ->
  format_before_coords l -> definitions_ok [] l -> image fc [] l = Some ms -> one_shape_each l ->
  exists g k t l', evaluate_all fc g_init l = Ok (g, k) /\ rewritten fc fs data = Ok t /\
    (forall fs', exists st', parse_text fs' t = Ok (l', st')) /\
    exists h m k', evaluate_all fc g_init l' = Ok (swap h m g, k') /\ Forall2 same_obj (g_store g) h.
Proof.
  intros P An W Fb De Im O.
  destruct (evaluate_all fc g_init l) as [[g k]|e] eqn:E; [|destruct (evaluate_all_error fc l [] g_init e (inv_init fc) De E) as [_ X]; congruence].
  assert (Wo : Forall (fun s => forall fn x y i j op, s = SCoord fn x y i j op -> from_list operations op) l).
  { eapply Forall_impl; [|exact W]. intros s Ws fn x y i j op ->. cbn [rest_writable] in Ws. inversion Ws as [s W'| | | | |]; subst. inversion W'; subst. assumption. }
  destruct (evaluate_all_kept fc l [] g_init g k (inv_init fc) E Wo) as [K Fi]; [cbn; tauto|].
  pose proof (filled_same fc [] l k Fi g_init (inv_init fc)) as Ek. rewrite E in Ek. cbn [rmap fst] in Ek.
  destruct (evaluate_all fc g_init k) as [[g2 k2]|] eqn:E2; [|discriminate Ek]. cbn in Ek. apply ok_inj in Ek. subst g2.
  pose proof (kept_writable st l k K W) as Wk. pose proof (kept_shapes l k K O) as Ok'. pose proof (kept_format l k K Fb) as Fk.
  assert (B : built k = Ok (finished k)).
  { unfold built. rewrite built_ok; [reflexivity| | |exact (odd_writable st k Wk)].
    - apply shapes_buildable; [exact (evaluated_definitions fc k [] g_init g k2 (inv_init fc) E2)|exact Ok'|discriminate].
    - intros m b p []. }
  destruct (write_reread st An k Wk Ok') as (t & l' & Wr & Rr & Pa). exists g, k, t, l'. split; [reflexivity|]. split; [|split].
  - unfold rewritten. rewrite P. cbn [bind fst snd]. rewrite E. cbn [bind snd]. rewrite B. exact Wr.
  - intros fs'. unfold parse_text. rewrite parse_data_eq. unfold split_commands. apply Pa. now right.
  - destruct (evaluate_reread fc k l' Rr g_init g k2 [] [] E2) as (h & m & ll & E3 & F3); [constructor|discriminate|]. exists h, m, ll. now split.
Qed.
Lemma same_deref_ap h h' o : Forall2 same_obj h h' -> same_opt (deref_ap h o) (deref_ap h' o).
Proof.
  intros F. destruct o as [l|]; [|exact I]. cbn [deref_ap]. destruct (fetch h l) as [o|] eqn:E.
  - destruct (fetch_same _ _ _ _ F E) as (o' & -> & S). exact S.
  - unfold fetch in *. apply nth_error_None in E. rewrite <- (same_length _ _ F) in E. apply nth_error_None in E. now rewrite E.
Qed.
Lemma same_deref_seg h h' s : Forall2 same_obj h h' -> same_seg (deref_seg h s) (deref_seg h' s).
Proof. intros F. destruct s; cbn [deref_seg same_seg]; repeat split; auto; now apply same_deref_ap. Qed.
Lemma same_deref h h' p m : Forall2 same_obj h h' -> deref h p = Some m -> exists m', deref h' p = Some m' /\ same_mark m m'.
Proof.
  intros F E. destruct p; cbn [deref] in *.
  - injection E as <-. eexists. split; [reflexivity|]. now apply same_deref_seg.
  - injection E as <-. eexists. split; [reflexivity|]. repeat split. induction l; constructor; auto. now apply same_deref_seg.
  - destruct (fetch h l) as [o|] eqn:Fe; [|discriminate E]. injection E as <-. destruct (fetch_same _ _ _ _ F Fe) as (o' & -> & S). eauto.
Qed.
Lemma same_shown h h' l ms : Forall2 same_obj h h' -> map (deref h) l = map Some ms -> exists ms', map (deref h') l = map Some ms' /\ Forall2 same_mark ms ms'.
Proof.
  intros F. revert ms. induction l as [|p l IH]; intros [|m ms] E; try discriminate E; [exists []; now split|].
  cbn [map] in E. injection E as E1 E2. destruct (same_deref _ _ _ _ F E1) as (m' & D & S). destruct (IH _ E2) as (ms' & D2 & S2).
  exists (m' :: ms'). cbn [map]. rewrite D, D2. split; [reflexivity|now constructor].
Qed.
Lemma rewritten_marks fc fs data l st ms : parse_text fs data = Ok (l, st) -> announceable st -> Forall (rest_writable st) l ->
  format_before_coords l -> definitions_ok [] l -> image fc [] l = Some ms -> one_shape_each l ->
  exists t l' ms', rewritten fc fs data = Ok t /\ (forall fs', exists st', parse_text fs' t = Ok (l', st')) /\ image fc [] l' = Some ms' /\ Forall2 same_mark ms ms'.
Proof.
  intros P An W Fb De Im O. destruct (rewritten_lemma fc fs data l st ms P An W Fb De Im O) as (g & k & t & l' & E & R & Pa & h & m & k' & E' & F).
  destruct (evaluate_image fc l [] g_init g k (inv_init fc) E) as (_ & ms1 & Im1 & Sh). rewrite Im in Im1. injection Im1 as <-.
  destruct (evaluate_image fc l' [] g_init _ k' (inv_init fc) E') as (_ & ms' & Im' & Sh'). exists t, l', ms'. repeat split; auto.
  change (shown g_init) with (@nil (option mark)) in Sh, Sh'. cbn [app] in Sh, Sh'. unfold shown in Sh, Sh'. cbn [swap with_store with_macros g_store g_prims] in Sh'.
  destruct (same_shown _ _ _ _ F Sh) as (ms2 & D & S). rewrite D in Sh'. assert (X : ms2 = ms'); [|now subst].
  clear - Sh'. revert ms' Sh'. induction ms2; intros [|x ms'] H; try discriminate H; [reflexivity|]. cbn in H. injection H as -> H. f_equal. auto.
Qed.
