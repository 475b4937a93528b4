(** Listings of statements. *)
From Verif Require Import PyBase QcLib NumModel NumSpec FmtModel NumProofs FmtProofs Regex SplitModel GerberText GerberEval ReportModel DumpModel DumpSpec.
From Verif Require GerberTextProofs ExcellonProofs PropSplit.
Import ListNotations.
Open Scope list_scope.

Definition okb (c : ascii) : bool := negb (ceq c (ascii_of_nat 10)) && negb (ceq c (ascii_of_nat 13)).
Lemma okb_ok t : forallb okb t = true -> in_one_line t.
Proof.
  intros H. apply Forall_forall. intros c Hc. rewrite forallb_forall in H. specialize (H c Hc). unfold okb in H.
  apply andb_prop in H as [A B]. split; intros ->; [now rewrite ceq_refl in A|now rewrite ceq_refl in B].
Qed.
Lemma line_app a b : in_one_line a -> in_one_line b -> in_one_line (a ++ b).
Proof. intros. now apply Forall_app. Qed.
Lemma line_left a b : in_one_line (a ++ b) -> in_one_line a.
Proof. intros H. now apply Forall_app in H. Qed.
Lemma line_right a b : in_one_line (a ++ b) -> in_one_line b.
Proof. intros H. now apply Forall_app in H. Qed.
Lemma line_digits t : all_digits t = true -> in_one_line t.
Proof.
  intros H. apply Forall_forall. intros c Hc. unfold all_digits in H. rewrite forallb_forall in H. specialize (H c Hc).
  split; intros ->; discriminate.
Qed.
Lemma line_int n : in_one_line (show_int n).
Proof. unfold show_int. destruct (n <? 0)%Z; [constructor; [split; discriminate|]|]; apply line_digits, show_nat_digits. Qed.
Lemma line_g v : in_one_line (fmt_g 6 v).
Proof.
  destruct (GerberTextProofs.fmt_g_gchars 6 v ltac:(lia)) as [H _]. apply Forall_forall. intros c Hc.
  rewrite forallb_forall in H. specialize (H c Hc). split; intros ->; discriminate.
Qed.
Lemma line_zeros n : in_one_line (zeros n).
Proof. induction n; [constructor|constructor; [split; discriminate|exact IHn]]. Qed.
Lemma line_pf d v : in_one_line (py_fmt_f 0 d v).
Proof.
  unfold py_fmt_f. cbv zeta. apply line_app; [apply line_zeros|]. apply line_app; [apply line_digits, show_nat_digits|].
  destruct d; [constructor|]. constructor; [split; discriminate|]. apply line_digits, dig_digits.
Qed.
Lemma line_f v : in_one_line (format_f 0 6 v).
Proof.
  unfold format_f, fill. cbv zeta. apply line_app; [|destruct (qclt v 0); [constructor; [split; discriminate|]|]; apply line_pf].
  cbn [Nat.sub repeat]. constructor.
Qed.

(** *** Statements whose texts have no line breaks *)

Definition opt_line (o : option text) : Prop := match o with Some t => in_one_line t | None => True end.
Definition fits (s : stmt) : Prop :=
  match s with
  | SAD _ t _ | SAS t | SIN t | SLN t | SDep t | SCom t | SUnk t => in_one_line t
  | SAM n m _ => in_one_line n /\ in_one_line m
  | SMI a b => a <> None /\ b <> None
  | SCoord fn _ _ _ _ op => opt_line fn /\ opt_line op
  | _ => True
  end.

Ltac lit := apply okb_ok; reflexivity.
Lemma line_part lb f af v : in_one_line (T lb) -> in_one_line (T af) -> (forall q, in_one_line (f q)) -> in_one_line (number_part lb f af v).
Proof. intros A B C. destruct v; [|constructor]. unfold number_part. apply line_app; [exact A|]. apply line_app; auto. Qed.
Lemma line_fn o : opt_line o -> in_one_line (function_part o).
Proof. destruct o as [[|c r]|]; try (constructor; fail). cbn [opt_line]. intros H. unfold function_part. apply line_app; [lit|]. apply line_app; [exact H|lit]. Qed.
Lemma line_op o : opt_line o -> in_one_line (op_part o).
Proof.
  destruct o as [[|c r]|]; try (constructor; fail). cbn [opt_line]. intros H. unfold op_part. cbv zeta. apply line_app; [lit|].
  destruct (teq _ _); [lit|]. destruct (teq _ _); [lit|]. destruct (teq _ _); [lit|exact H].
Qed.
Lemma line_shape t : in_one_line t -> in_one_line (shape_text t).
Proof. intros H. unfold shape_text. repeat (destruct (teq _ _); [lit|]). exact H. Qed.

Lemma bracket_app a b : bracketed (T "<" ++ (a ++ b) ++ T ">") -> bracketed (T "<" ++ a ++ b ++ T ">").
Proof. now rewrite <- app_assoc. Qed.
Lemma bracket t c r : t = T "<" ++ c ++ r -> (exists m, r = m ++ T ">") -> bracketed t.
Proof. intros -> [m ->]. exists (c ++ m). now rewrite <- app_assoc. Qed.
Definition ends_in (t : text) : Prop := exists m, t = m ++ T ">".
Lemma ends_app a b : ends_in b -> ends_in (a ++ b).
Proof. intros [m ->]. exists (a ++ m). now rewrite app_assoc. Qed.
Lemma ends_bracketed t : ends_in t -> bracketed (T "<" ++ t).
Proof. intros [m ->]. now exists m. Qed.
Lemma ends_one : ends_in (T ">").
Proof. now exists []. Qed.
Lemma ends_quote : ends_in (T "'>").
Proof. now exists (T "'"). Qed.
Lemma ends_notation : ends_in (T " notation>").
Proof. now exists (T " notation"). Qed.

Ltac lines := repeat first [assumption | apply line_int | apply line_g | apply line_f | lit | apply line_fn | apply line_op
  | apply line_shape | (apply line_part; [lit|lit|intros; first [apply line_g|apply line_f]])
  | (apply line_digits; apply show_nat_digits) | apply line_app].
Ltac ends := repeat first [exact ends_one | exact ends_quote | exact ends_notation | apply ends_app].

Lemma bracket_lit s t : ends_in t -> bracketed (T (String "<" s) ++ t).
Proof. intros [m ->]. exists (T s ++ m). now rewrite <- app_assoc. Qed.

Lemma str_fits u s : fits s -> exists d, stmt_str u s = Ok d /\ in_one_line d /\ bracketed d.
Proof.
  intros H. destruct s as [zs abs f|pm m|p|d sh ms|n m pr|m|n|p|a|a b|a b|a b|n|ln|fn x y i j op|d dp|c| |q|m|ln]; cbn [fits] in H;
    unfold stmt_str.
  10: { destruct a as [a|], b as [b|]; try (destruct H; congruence). cbn [show_opt_int bind]. eexists. split; [reflexivity|].
        split; [lines|apply bracket_lit; ends]. }
  5: destruct H as [H1 H2]. 14: destruct H as [H1 H2].
  all: eexists; split; [reflexivity|]; split.
  all: try (apply bracket_lit; ends; fail).
  all: try (lines; fail).
  - lines; [destruct zs; lit|destruct abs; lit].
  - lines. destruct m; lit.
  - lines. destruct p; lit.
  - lines. destruct p; lit.
  - exists (T "EOF Statement"). reflexivity.
  - destruct u, q; lit.
  - destruct u, m; lit.
Qed.

Lemma dump_fits u l : Forall fits l -> exists ds, dump_str u l = Ok (text_of_lines ds) /\
  Forall2 (fun s d => stmt_str u s = Ok d /\ in_one_line d /\ bracketed d) l ds.
Proof.
  induction 1 as [|s l F _ (ds & D & R)]; [now exists []|]. destruct (str_fits u s F) as (d & E & P).
  exists (d :: ds). cbn [dump_str]. rewrite E. cbn [bind]. rewrite D. cbn [bind]. split; [|constructor; auto].
  unfold text_of_lines. cbn [map List.concat]. rewrite <- app_assoc. reflexivity.
Qed.

(** *** What is read has no line breaks *)

Lemma rm_caps (P : ascii -> Prop) r : forall s u cs t, Forall P s -> In (u, cs, t) (rm r s) -> Forall (fun c => Forall P (snd c)) cs.
Proof.
  induction r as [|x|p|p|r IH|a IHa b IHb|a IHa b IHb|n r IH]; intros s u cs t F H; pose proof (rm_used _ _ _ _ _ H) as U; cbn [rm] in H.
  - destruct H as [H|[]]. injection H as <- <- <-. constructor.
  - destruct (strip_prefix x s) eqn:E; [|destruct H]. destruct H as [H|[]]. injection H as <- <- <-. constructor.
  - destruct s as [|c s]; [destruct H|]. destruct (p c); [|destruct H]. destruct H as [H|[]].
    injection H as <- <- <-. constructor.
  - apply star_match_used in H as (_ & -> & _). constructor.
  - apply in_app_or in H as [H|[H|[]]]; [eauto|]. injection H as <- <- <-. constructor.
  - apply in_flat_map in H as ([[u1 cs1] t1] & H1 & H2). apply in_map_iff in H2 as ([[u2 cs2] t2] & H2 & H3).
    injection H2 as <- <- <-. pose proof (rm_used _ _ _ _ _ H1) as U1. apply Forall_app. split; [|eauto].
    eapply IHb; [|exact H3]. rewrite U1 in F. now apply Forall_app in F.
  - apply in_app_or in H as [H|H]; eauto.
  - apply in_map_iff in H as ([[u' cs'] t'] & H & Ix). injection H as <- <- <-. constructor; [|eauto].
    cbn [snd]. rewrite U in F. now apply Forall_app in F.
Qed.
Lemma match_caps r s g t : in_one_line s -> re_match r s = Some (g, t) -> Forall (fun c => in_one_line (snd c)) g /\ in_one_line t.
Proof.
  unfold re_match. intros F H. destruct (rm r s) as [|[[u cs] t'] l] eqn:E; [discriminate|]. injection H as <- <-.
  assert (I0 : In (u, cs, t') (rm r s)) by (rewrite E; now left). split; [exact (rm_caps _ _ _ _ _ _ F I0)|].
  apply rm_used in I0. rewrite I0 in F. now apply line_right in F.
Qed.
Lemma many_caps rs s g t : in_one_line s -> match_one_from_many rs s = Some (g, t) -> Forall (fun c => in_one_line (snd c)) g /\ in_one_line t.
Proof.
  intros F. induction rs as [|r rs IH]; cbn [match_one_from_many]; [discriminate|].
  destruct (re_match r s) as [[g' t']|] eqn:E; [|exact IH]. intros H. injection H as <- <-. now apply match_caps in E.
Qed.
Lemma group_line n g : Forall (fun c => in_one_line (snd c)) g -> opt_line (group n g).
Proof. induction 1 as [|[m v] g F _ IH]; cbn [group]; [exact Logic.I|]. destruct (teq m (T n)); [exact F|exact IH]. Qed.
Lemma dflt_line o : opt_line o -> in_one_line (dflt o).
Proof. destruct o; [auto|constructor]. Qed.

Definition good (inc : text -> pset -> res (list stmt * pset)) : Prop := forall n st l st', inc n st = Ok (l, st') -> Forall fits l.

Ltac invert H := repeat match type of H with
  | bind ?x _ = Ok _ => let E := fresh "E" in destruct x as [?|?] eqn:E; cbn [bind] in H; [|discriminate H]
  end.

Lemma param_fits inc st g r l st' r' : good inc -> Forall (fun c => in_one_line (snd c)) g -> param_stmt inc st g r = Ok (l, st', r') ->
  Forall fits l /\ r' = r.
Proof.
  intros Gi Fg H. unfold param_stmt in H.
  assert (GL : forall n, in_one_line (dflt (group n g))) by (intros; apply dflt_line, group_line, Fg).
  repeat match type of H with
  | (if ?b then _ else _) = _ => destruct b
  end;
  try (unfold fs_from_dict in H); try (unfold ad_from_dict in H); try (unfold am_from_dict in H); try (unfold of_from_dict in H);
  try (unfold mi_from_dict in H);
  repeat (progress invert H);
  try (apply ok_inj in H; injection H as <- <- <-; split; [|reflexivity]).
  all: try (repeat match goal with E : bind _ _ = Ok _ |- _ => revert E end; intros;
    repeat match goal with E : bind ?x _ = Ok _ |- _ => let F := fresh "E" in destruct x as [?|?] eqn:F; cbn [bind] in E; [|discriminate E] | E : Ok _ = Ok _ |- _ => apply ok_inj in E; try subst end).
  all: try (constructor; [cbn [fits sf_from_dict]; auto; try (split; auto; discriminate)|constructor]; fail).
  destruct a as [l0 st0]. apply ok_inj in H. injection H as <- <- <-. split; [|reflexivity]. eauto.
Qed.

Lemma step_fits inc st line l st' r : good inc -> in_one_line line -> parse_step inc st line = Some (Ok (l, st', r)) ->
  Forall fits l /\ in_one_line r.
Proof.
  intros Gi Fl H. unfold parse_step in H. destruct line as [|c rest]; [discriminate|].
  assert (Fr : in_one_line rest) by now inversion Fl.
  destruct (ceq c "*"%char); [injection H as <- <- <-; split; [constructor|exact Fr]|].
  repeat match type of H with
  | match re_match ?r ?s with _ => _ end = _ => let E := fresh "E" in destruct (re_match r s) as [[g t]|] eqn:E;
      [apply (match_caps _ _ _ _ Fl) in E as [Fg Ft]|clear E]
  | match match_one_from_many ?r ?s with _ => _ end = _ => let E := fresh "E" in destruct (match_one_from_many r s) as [[g t]|] eqn:E;
      [apply (many_caps _ _ _ _ Fl) in E as [Fg Ft]|clear E]
  end.
  - apply (f_equal (fun o => match o with Some x => x | None => Err ValueError end)) in H. unfold coord_from_dict in H. invert H.
    repeat match goal with E : bind ?x _ = Ok _ |- _ => let F := fresh "E" in destruct x as [?|?] eqn:F; cbn [bind] in E; [|discriminate E] end.
    repeat match goal with E : Ok _ = Ok _ |- _ => apply ok_inj in E; try subst end.
    injection H as <- <- <-. split; [|exact Ft]. constructor; [|constructor]. cbn [fits]. split; now apply group_line.
  - apply (f_equal (fun o => match o with Some x => x | None => Err ValueError end)) in H. invert H. apply ok_inj in H. injection H as <- <- <-.
    split; [|exact Ft]. constructor; [exact Logic.I|constructor].
  - injection H as H. destruct (param_fits _ _ _ _ _ _ _ Gi Fg H) as [A ->]. auto.
  - injection H as <- <- <-. split; [|exact Ft]. constructor; [exact Logic.I|constructor].
  - injection H as <- <- <-. split; [|exact Ft]. constructor; [exact Logic.I|constructor].
  - injection H as <- <- <-. split; [|exact Ft]. constructor; [|constructor]. cbn [fits]. now apply dflt_line, group_line.
  - injection H as <- <- <-. split; [|exact Ft]. constructor; [exact Logic.I|constructor].
  - injection H as <- <- <-. split; [|exact Ft]. constructor; [exact Fl|constructor].
  - injection H as <- <- <-. split; [|exact Ft]. constructor; [exact Logic.I|constructor].
  - destruct (char_in "*"%char rest); [|discriminate]. injection H as <- <- <-. split; [|constructor]. constructor; [exact Fl|constructor].
Qed.

Lemma line_fits inc : good inc -> forall fuel st line l st' r, in_one_line line -> parse_line fuel inc st line = Ok (l, st', r) ->
  Forall fits l /\ in_one_line r.
Proof.
  intros Gi. induction fuel as [|n IH]; intros st line l st' r Fl H; cbn [parse_line] in H; [discriminate|].
  destruct (parse_step inc st line) as [[[[l1 st1] r1]|e]|] eqn:E; cbn [bind] in H.
  - destruct (step_fits _ _ _ _ _ _ Gi Fl E) as [F1 F2].
    destruct (parse_line n inc st1 r1) as [[[l2 st2] r2]|] eqn:E2; cbn [bind] in H; [|discriminate].
    apply ok_inj in H. injection H as <- <- <-. destruct (IH _ _ _ _ _ F2 E2) as [F3 F4]. split; [|exact F4]. now apply Forall_app.
  - discriminate.
  - apply ok_inj in H. injection H as <- <- <-. split; [constructor|exact Fl].
Qed.

Lemma cmds_fits inc : good inc -> forall data st old l st', Forall in_one_line data -> in_one_line old ->
  parse_cmds inc st old data = Ok (l, st') -> Forall fits l.
Proof.
  intros Gi. induction data as [|c data IH]; intros st old l st' Fd Fo H; cbn [parse_cmds] in H.
  - apply ok_inj in H. injection H as <- <-. constructor.
  - inversion Fd as [|? ? Fc Fd']; subst.
    assert (Fl : in_one_line (old ++ strip c)).
    { apply line_app; [exact Fo|]. destruct (ExcellonProofs.strip_sub c) as (a & b & E). rewrite E in Fc. now apply line_right, line_left in Fc. }
    cbv zeta in H. destruct (old ++ strip c) as [|x line] eqn:E; [eauto|]. destruct (continues (x :: line)); [eauto|].
    destruct (parse_line _ inc st (x :: line)) as [[[l1 st1] r1]|] eqn:P; cbn [bind] in H; [|discriminate].
    destruct (line_fits _ Gi _ _ _ _ _ _ Fl P) as [F1 F2].
    destruct (parse_cmds inc st1 r1 data) as [[l2 st2]|] eqn:P2; cbn [bind] in H; [|discriminate].
    apply ok_inj in H. injection H as <- <-. apply Forall_app. split; eauto.
Qed.

Lemma split_lines data : Forall in_one_line (split_commands data).
Proof.
  destruct (PropSplit.split_shape data [] true) as [S _]; [intros c []|]. unfold split_commands.
  eapply Forall_impl; [|exact S]. intros y [_ N]. apply Forall_forall. intros c Hc. pose proof (N c Hc) as X. unfold PropSplit.line_break in X.
  split; intros ->; apply X; auto.
Qed.
Lemma data_fits fs : forall n st data l st', parse_data n fs st data = Ok (l, st') -> Forall fits l.
Proof.
  induction n as [|n IH]; intros st data l st' H; cbn [parse_data] in H.
  - eapply cmds_fits; [|apply split_lines|constructor|exact H]. intros ? ? ? ? X. discriminate.
  - eapply cmds_fits; [|apply split_lines|constructor|exact H]. intros m s l' s' X.
    destruct (fs m) as [t|]; cbn [bind] in X; [eauto|discriminate].
Qed.

(** *** Evaluation fills in operations only *)

Lemma draw_op fc st x y i j st' : draw fc st x y i j = Ok st' -> g_op st' = g_op st.
Proof.
  unfold draw. cbv zeta. intros H. destruct (g_interp st), (g_region st); try destruct (zget (g_ap st) (g_aps st)); try discriminate;
    apply ok_inj in H; subst; reflexivity.
Qed.
Lemma move_op st : g_op (move st) = g_op st.
Proof. unfold move. destruct (g_region st); [|reflexivity]. destruct (g_cur st) as [[|? [|? ?]]|]; reflexivity. Qed.
Lemma flash_op st x y st' : flash st x y = Ok st' -> g_op st' = g_op st.
Proof.
  unfold flash. intros H. destruct (zget _ _); [|discriminate]. destruct (fetch _ _); [|discriminate].
  destruct (alloc _ _). apply ok_inj in H. now subst.
Qed.
Lemma region_op st m : g_op (evaluate_region_mode st m) = g_op st.
Proof. unfold evaluate_region_mode. destruct (g_region st), m; try reflexivity. destruct (g_cur st) as [[|? ?]|]; reflexivity. Qed.
Lemma param_op st s st' : evaluate_param st s = Ok st' -> g_op st' = g_op st.
Proof.
  intros H. destruct s; cbn [evaluate_param] in H; try (apply ok_inj in H; subst; reflexivity).
  - destruct param; apply ok_inj in H; subst; reflexivity.
  - unfold define_aperture in H. destruct (build_aperture _ _ _); cbn [bind] in H; [|discriminate]. destruct (alloc _ _).
    apply ok_inj in H. now subst.
  - match type of H with bind ?x _ = _ => destruct x end; cbn [bind] in H; [|discriminate]. apply ok_inj in H. now subst.
Qed.
Lemma evaluate_fits fc st s st' s' : fits s -> in_one_line (g_op st) -> evaluate fc st s = Ok (st', s') -> fits s' /\ in_one_line (g_op st').
Proof.
  intros F Fo H. destruct s; cbn [evaluate] in H;
    try (destruct (evaluate_param _ _) eqn:E; cbn [bind] in H; [|discriminate]; apply param_op in E; apply ok_inj in H; injection H as <- <-; rewrite E; split; assumption);
    try (apply ok_inj in H; injection H as <- <-; split; assumption).
  - unfold evaluate_coord in H. cbv zeta in H. destruct F as [Ff Fp].
    match type of H with (if _ then Ok (?s, _) else _) = _ => set (st1 := s) in * end.
    assert (O1 : g_op st1 = g_op st) by (unfold st1; repeat destruct (otmem _ _); reflexivity).
    destruct (only_function func x y i j op); [apply ok_inj in H; injection H as <- <-; rewrite O1; split; [split|]; assumption|].
    set (st2 := match op with Some o => with_op o st1 | None => st1 end) in *.
    assert (O2 : in_one_line (g_op st2)) by (unfold st2; destruct op; [exact Fp|now rewrite O1]).
    match type of H with bind ?x _ = _ => destruct x as [st3|] eqn:E; cbn [bind] in H; [|discriminate] end.
    apply ok_inj in H. injection H as <- <-. split; [split; assumption|]. cbn [with_xy g_op].
    destruct (tmem (g_op st2) ["D01"; "D1"]%string); [apply draw_op in E; now rewrite E|].
    destruct (tmem (g_op st2) ["D02"; "D2"]%string); [apply ok_inj in E; subst; now rewrite move_op|].
    destruct (tmem (g_op st2) ["D03"; "D3"]%string); [apply flash_op in E; now rewrite E|]. apply ok_inj in E. now subst.
  - apply ok_inj in H. injection H as <- <-. split; [assumption|]. now rewrite region_op.
Qed.
Lemma all_fits fc : forall l st st' l', Forall fits l -> in_one_line (g_op st) -> evaluate_all fc st l = Ok (st', l') ->
  Forall fits l' /\ List.length l' = List.length l.
Proof.
  induction l as [|s l IH]; intros st st' l' F Fo H; cbn [evaluate_all] in H.
  - apply ok_inj in H. injection H as <- <-. auto.
  - inversion F as [|? ? Fs Fl]; subst. destruct (evaluate fc st s) as [[st1 s1]|] eqn:E; cbn [bind] in H; [|discriminate].
    destruct (evaluate_fits _ _ _ _ _ Fs Fo E) as [F1 O1].
    destruct (evaluate_all fc st1 l) as [[st2 l2]|] eqn:E2; cbn [bind] in H; [|discriminate]. apply ok_inj in H. injection H as <- <-.
    destruct (IH _ _ _ Fl O1 E2) as [F2 L2]. split; [now constructor|]. cbn [List.length]. now rewrite L2.
Qed.

Lemma dump_read fs fc data l se st l' u : parse_text fs data = Ok (l, se) -> evaluate_all fc g_init l = Ok (st, l') ->
  exists ds, dump_str u l' = Ok (text_of_lines ds) /\ List.length ds = List.length l /\
    Forall2 (fun s d => stmt_str u s = Ok d /\ in_one_line d /\ bracketed d) l' ds.
Proof.
  intros P E. destruct (all_fits fc l g_init st l' (data_fits _ _ _ _ _ _ P) ltac:(lit) E) as [F L].
  destruct (dump_fits u l' F) as (ds & D & R). exists ds. split; [exact D|]. split; [|exact R].
  rewrite <- L. clear - R. induction R; cbn [List.length]; congruence.
Qed.

Lemma dump_app u l l' : dump_str u (l ++ l') = do t <- dump_str u l; do t' <- dump_str u l'; Ok (t ++ t').
Proof.
  induction l as [|s l IH]; cbn [dump_str app]; [destruct (dump_str u l'); reflexivity|].
  destruct (stmt_str u s); cbn [bind]; [|reflexivity]. rewrite IH. destruct (dump_str u l); cbn [bind]; [|reflexivity].
  destruct (dump_str u l'); cbn [bind]; [|reflexivity]. f_equal. now rewrite <- !app_assoc.
Qed.

(** *** What a description tells *)

Lemma cut_eq (c : ascii) a a' b b' : ~ In c a -> ~ In c a' -> a ++ c :: b = a' ++ c :: b' -> a = a' /\ b = b'.
Proof.
  revert a'. induction a as [|x a IH]; intros [|y a'] N N' H; cbn in H.
  - injection H as ->. auto.
  - injection H as -> _. exfalso. apply N'. now left.
  - injection H as -> _. exfalso. apply N. now left.
  - injection H as -> H. destruct (IH a') as [-> ->]; auto; intros X; [apply N|apply N']; now right.
Qed.
Lemma nat_chars n c : In c (show_nat n) -> is_digit c = true.
Proof. intros H. pose proof (show_nat_digits n) as D. unfold all_digits in D. rewrite forallb_forall in D. auto. Qed.
Lemma int_chars n c : In c (show_int n) -> is_digit c = true \/ c = "-"%char.
Proof. unfold show_int. destruct (n <? 0)%Z; [intros [<-|H]; auto|intros H]; left; eapply nat_chars; eassumption. Qed.
Lemma nat_inj a b : (0 <= a)%Z -> (0 <= b)%Z -> show_nat a = show_nat b -> a = b.
Proof. intros A B H. apply (f_equal dval) in H. now rewrite !dval_show_nat in H. Qed.
Lemma int_inj a b : show_int a = show_int b -> a = b.
Proof.
  unfold show_int. destruct (Z.ltb_spec a 0) as [A|A], (Z.ltb_spec b 0) as [B|B]; intros H.
  - injection H as H. apply nat_inj in H; lia.
  - assert (X : In "-"%char (show_nat b)) by (rewrite <- H; now left). apply nat_chars in X. discriminate.
  - assert (X : In "-"%char (show_nat a)) by (rewrite H; now left). apply nat_chars in X. discriminate.
  - apply nat_inj in H; lia.
Qed.
Lemma tail_inj a b r : a ++ T r = b ++ T r -> a = b.
Proof. apply app_inv_tail. Qed.
Ltac no_char := intros X; first [apply nat_chars in X | apply int_chars in X as [X|X]]; discriminate.

(** *** Numbers *)

Open Scope Qc_scope.
Lemma this_scale a q : (this (a * Q2Qc q) == this a * q)%Q.
Proof. rewrite this_mult, this_Q2Qc. reflexivity. Qed.

Lemma sig_close v : qabs (v - round_sig_signed 6 v) * zq 200000 <= qabs v.
Proof.
  assert (P : forall w, 0 < w -> qabs (w - round_sig 6 w) * zq 200000 <= w).
  { intros w Hw. pose proof (round_sig_close 6 w ltac:(lia) Hw) as C. destruct (flog10_spec w Hw) as [F _].
    change (Z.of_nat 6 - 1)%Z with 5%Z in C. unfold Z.sub in C. rewrite qpow10_add in C.
    replace (qpow10 (Z.opp 5)) with (Q2Qc (1 # 100000)) in C by (apply qc_eq_iff; reflexivity).
    set (p := qpow10 (flog10 w)) in *. replace (zq 200000) with (Q2Qc (200000 # 1)) by reflexivity.
    assert (E : Q2Qc (1 # 2) * (p * Q2Qc (1 # 100000)) = p * Q2Qc (1 # 200000)) by (transitivity (p * (Q2Qc (1 # 2) * Q2Qc (1 # 100000))); [ring|f_equal; apply qc_eq_iff; reflexivity]). rewrite E in C. clear E.
    set (a := qabs (w - round_sig 6 w)) in *. clearbody a p. pose proof (this_scale p (1 # 200000)). pose proof (this_scale a (200000 # 1)).
    qclra. }
  unfold round_sig_signed. destruct (qceq_spec v 0) as [->|N]; [vm_compute; discriminate|].
  destruct (qclt_spec v 0) as [L|L].
  - specialize (P (- v) ltac:(qclra)). set (r := round_sig 6 (- v)) in *. clearbody r. replace (zq 200000) with (Q2Qc (200000 # 1)) in * by reflexivity.
    pose proof (this_scale (qabs (v - - r)) (200000 # 1)) as S1. pose proof (this_scale (qabs (- v - r)) (200000 # 1)) as S2. unfold qabs in *.
    destruct (Qclt_le_dec v 0), (Qclt_le_dec (v - - r) 0), (Qclt_le_dec (- v - r) 0); qclra.
  - assert (Hv : 0 < v) by (apply Qcnot_le_lt; intros C; apply Qcle_lt_or_eq in C as [C|C]; auto).
    specialize (P v Hv). unfold qabs in *. destruct (Qclt_le_dec v 0); [qclra|exact P].
Qed.
Lemma g_nearly a b : fmt_g 6 a = fmt_g 6 b -> nearly 200000 a b.
Proof.
  intros H. apply (f_equal py_float) in H. rewrite !py_float_fmt_g in H by lia. apply ok_inj in H.
  pose proof (sig_close a) as A. pose proof (sig_close b) as B. rewrite <- H in B. unfold nearly.
  set (r := round_sig_signed 6 a) in *. clearbody r. clear H.
  replace (zq 200000) with (Q2Qc (200000 # 1)) in * by reflexivity.
  pose proof (this_scale (qabs (a - r)) (200000 # 1)) as S1. pose proof (this_scale (qabs (b - r)) (200000 # 1)) as S2. pose proof (this_scale (qabs (a - b)) (200000 # 1)) as S3.
  unfold qabs in *. destruct (Qclt_le_dec (a - r) 0), (Qclt_le_dec (b - r) 0), (Qclt_le_dec (a - b) 0), (Qclt_le_dec a 0), (Qclt_le_dec b 0); qclra.
Qed.
Lemma g_no c v : GerberTextProofs.gchar c = false -> ~ In c (fmt_g 6 v).
Proof. destruct (GerberTextProofs.fmt_g_gchars 6 v ltac:(lia)) as [H _]. rewrite forallb_forall in H. intros N X. specialize (H _ X). congruence. Qed.

Definition not_headed (c : ascii) (r : text) : Prop := forall r0, r <> c :: r0.
Lemma part_cut c s f v v' r r' : (forall q, ~ In " "%char (f q)) -> not_headed c r -> not_headed c r' ->
  number_part (String c s) f " " v ++ r = number_part (String c s) f " " v' ++ r' ->
  both (fun a b => f a = f b) v v' /\ r = r'.
Proof.
  intros N Hr Hr' H. destruct v as [a|], v' as [b|]; cbn [number_part both] in *.
  - rewrite <- !app_assoc in H. apply app_inv_head in H. apply cut_eq in H as [A B]; auto.
  - exfalso. exact (Hr' _ (eq_sym H)).
  - exfalso. exact (Hr _ H).
  - auto.
Qed.
Lemma both_impl (p q : Qc -> Qc -> Prop) v v' : (forall a b, p a b -> q a b) -> both p v v' -> both q v v'.
Proof. destruct v, v'; cbn; auto. Qed.

Lemma fn_cut fn fn' r r' : one_word fn -> one_word fn' -> not_headed "F"%char r -> not_headed "F"%char r' ->
  function_part fn ++ r = function_part fn' ++ r' -> fn = fn' /\ r = r'.
Proof.
  intros W W' Hr Hr' H. destruct fn as [[|c t]|], fn' as [[|c' t']|]; cbn [one_word function_part] in *;
    try (destruct W; congruence); try (destruct W'; congruence).
  - rewrite <- !app_assoc in H. apply app_inv_head in H. apply cut_eq in H as [A B]; [|tauto|tauto]. rewrite A. auto.
  - exfalso. exact (Hr' _ (eq_sym H)).
  - exfalso. exact (Hr _ H).
  - auto.
Qed.
Lemma op_cut op op' : d_code op -> d_code op' -> op_part op ++ T ">" = op_part op' ++ T ">" -> op = op'.
Proof.
  intros D D' H. apply app_inv_tail in H. destruct op as [t|], op' as [t'|]; cbn [d_code] in *;
    try (destruct D as [q ->]); try (destruct D' as [q' ->]); try reflexivity; try discriminate H.
  unfold op_part in H. apply app_inv_head in H.
  assert (X : forall t1 s, teq t1 (T s) = true -> t1 = T s) by (intros t1 s Y; now apply teq_true in Y).
  repeat match type of H with context[teq ?a (T ?b)] => let Y := fresh "Y" in destruct (teq a (T b)) eqn:Y; [apply X in Y|] end;
    try congruence; try discriminate H.
Qed.

Ltac heads := intros r0; repeat match goal with |- context[number_part _ _ _ ?v] => is_var v; destruct v end;
  try match goal with |- context[op_part ?o] => destruct o as [[|? ?]|] end; discriminate.
Lemma coord_agree u fn x y i j op fn' x' y' i' j' op' d :
  stmt_str u (SCoord fn x y i j op) = Ok d -> stmt_str u (SCoord fn' x' y' i' j' op') = Ok d ->
  one_word fn -> one_word fn' -> d_code op -> d_code op' ->
  fn = fn' /\ both (nearly 200000) x x' /\ both (nearly 200000) y y' /\ both (nearly 200000) i i' /\ both (nearly 200000) j j' /\ op = op'.
Proof.
  intros H H' W W' D D'. unfold stmt_str in H, H'. apply ok_inj in H. apply ok_inj in H'. rewrite <- H' in H. clear H'.
  apply app_inv_head in H.
  assert (G : forall q, ~ In " "%char (fmt_g 6 q)) by (intros q; now apply g_no).
  apply fn_cut in H as [A H]; [|assumption|assumption|heads|heads].
  apply part_cut in H as [B1 H]; [|exact G|heads|heads].
  apply part_cut in H as [B2 H]; [|exact G|heads|heads].
  apply part_cut in H as [B3 H]; [|exact G|heads|heads].
  apply part_cut in H as [B4 H]; [|exact G|heads|heads].
  apply op_cut in H; [|assumption|assumption].
  repeat split; try assumption; (eapply both_impl; [|eassumption]; apply g_nearly).
Qed.
Lemma pf_inj v w : 0 <= v -> 0 <= w -> py_fmt_f 0 6 v = py_fmt_f 0 6 w -> rhe (v * zq (p10 6)) = rhe (w * zq (p10 6)).
Proof.
  intros V W H. unfold py_fmt_f in H. cbn [Nat.sub zeros repeat app] in H.
  assert (NN : forall x, 0 <= x -> (0 <= rhe (x * zq (p10 6)))%Z).
  { intros x X. apply rhe_nonneg. change 0 with (0 * zq (p10 6)). apply Qcmult_le_compat_r; [exact X|]. discriminate. }
  pose proof (NN v V) as Nv. pose proof (NN w W) as Nw. set (n := rhe (v * zq (p10 6))) in *. set (m := rhe (w * zq (p10 6))) in *.
  clearbody n m. apply cut_eq in H as [A B]; [|no_char|no_char]. apply nat_inj in A; [|apply Z.div_pos; [assumption|reflexivity]|apply Z.div_pos; [assumption|reflexivity]].
  apply (f_equal dval) in B. rewrite !dval_dig in B. change (10 ^ Z.of_nat 6)%Z with (p10 6) in B.
  rewrite (Z.div_mod n (p10 6)), (Z.div_mod m (p10 6)) by discriminate. rewrite A, B. reflexivity.
Qed.
Lemma pf_no_sign v r : py_fmt_f 0 6 v <> "-"%char :: r.
Proof.
  unfold py_fmt_f. cbn [Nat.sub zeros repeat app]. intros H. pose proof (show_nat_nonempty (rhe (v * zq (p10 6)) / p10 6)) as N.
  pose proof (nat_chars (rhe (v * zq (p10 6)) / p10 6) "-"%char) as C. destruct (show_nat _) as [|x s]; [contradiction|].
  cbn [app] in H. injection H as -> _. discriminate (C (or_introl eq_refl)).
Qed.
Lemma f_close a b : format_f 0 6 a = format_f 0 6 b -> close 1000000 a b.
Proof.
  assert (P : forall v w, 0 <= v -> 0 <= w -> py_fmt_f 0 6 v = py_fmt_f 0 6 w -> close 1000000 v w).
  { intros v w V W H. apply pf_inj in H; [|assumption|assumption]. change (zq (p10 6)) with (zq 1000000) in H.
    pose proof (rhe_bounds (v * zq 1000000)) as [A1 A2]. pose proof (rhe_bounds (w * zq 1000000)) as [B1 B2]. rewrite <- H in B1, B2.
    set (r := zq (rhe (v * zq 1000000))) in *. clearbody r. clear H. unfold close. replace (zq 1000000) with (Q2Qc (1000000 # 1)) in * by reflexivity.
    pose proof (this_scale v (1000000 # 1)) as S1. pose proof (this_scale w (1000000 # 1)) as S2. pose proof (this_scale (qabs (v - w)) (1000000 # 1)) as S3.
    assert (HF : (this (Q2Qc (1 # 2)) == 1 # 2)%Q) by reflexivity.
    unfold qabs in *. destruct (Qclt_le_dec (v - w) 0); qclra. }
  unfold format_f, fill. cbn [Nat.sub repeat app]. intros H.
  destruct (qclt_spec a 0) as [A|A], (qclt_spec b 0) as [B|B].
  - injection H as H. specialize (P (- a) (- b) ltac:(qclra) ltac:(qclra) H). unfold close in *.
    replace (- a - - b) with (- (a - b)) in P by ring. unfold qabs in *.
    destruct (Qclt_le_dec (- (a - b)) 0), (Qclt_le_dec (a - b) 0).
    + exfalso. qclra.
    + replace (a - b) with (- - (a - b)) by ring. exact P.
    + exact P.
    + assert (Z0 : a - b = 0) by qclra. rewrite Z0. discriminate.
  - exfalso. exact (pf_no_sign _ _ (eq_sym H)).
  - exfalso. exact (pf_no_sign _ _ H).
  - apply P; [apply Qcnot_lt_le; exact A|apply Qcnot_lt_le; exact B|exact H].
Qed.
Lemma f_no c v : is_digit c = false -> char_in c (T "-.") = false -> ~ In c (format_f 0 6 v).
Proof.
  intros N M X. unfold format_f, fill in X. cbn [Nat.sub repeat app] in X.
  assert (P : forall w, ~ In c (py_fmt_f 0 6 w)).
  { intros w Y. unfold py_fmt_f in Y. cbn [Nat.sub zeros repeat app] in Y. apply in_app_or in Y as [Y|Y]; [apply nat_chars in Y; congruence|].
    destruct Y as [<-|Y]; [discriminate M|]. pose proof (dig_digits 6 (rhe (w * zq (p10 6)))) as D. unfold all_digits in D. rewrite forallb_forall in D.
    rewrite (D c Y) in N. discriminate. }
  destruct (qclt v 0); [destruct X as [<-|X]; [discriminate M|]|]; now apply P in X.
Qed.
Lemma offset_agree u a b a' b' d : stmt_str u (SOF a b) = Ok d -> stmt_str u (SOF a' b') = Ok d ->
  both (close 1000000) a a' /\ both (close 1000000) b b'.
Proof.
  intros H H'. unfold stmt_str in H, H'. apply ok_inj in H. apply ok_inj in H'. rewrite <- H' in H. clear H'. apply app_inv_head in H.
  assert (G : forall q, ~ In " "%char (format_f 0 6 q)) by (intros q; now apply f_no).
  apply part_cut in H as [B1 H]; [|exact G|heads|heads].
  apply part_cut in H as [B2 H]; [|exact G|heads|heads].
  split; (eapply both_impl; [|eassumption]; apply f_close).
Qed.
Lemma scale_agree u a b a' b' d : stmt_str u (SSF a b) = Ok d -> stmt_str u (SSF a' b') = Ok d ->
  both (nearly 200000) a a' /\ both (nearly 200000) b b'.
Proof.
  intros H H'. unfold stmt_str in H, H'. apply ok_inj in H. apply ok_inj in H'. rewrite <- H' in H. clear H'. apply app_inv_head in H.
  assert (G : forall q, ~ In " "%char (fmt_g 6 q)) by (intros q; now apply g_no).
  apply part_cut in H as [B1 H]; [|exact G|heads|heads]. split; [eapply both_impl; [|eassumption]; apply g_nearly|].
  apply app_inv_tail in H. destruct b as [b|], b' as [b'|]; cbn [number_part both] in *; try discriminate H; [|exact Logic.I].
  apply app_inv_head in H. rewrite !app_nil_r in H. now apply g_nearly.
Qed.

Lemma shape_inj t t' : ~ shape_name t' -> ~ shape_name t -> shape_text t = shape_text t' -> t = t'.
Proof.
  unfold shape_text, shape_name. intros N' N H.
  assert (X : forall t1 s, teq t1 (T s) = true -> t1 = T s) by (intros t1 s Y; now apply teq_true in Y).
  repeat match type of H with context[teq ?a (T ?b)] => let Y := fresh "Y" in destruct (teq a (T b)) eqn:Y; [apply X in Y|] end;
    try congruence; try discriminate H; exfalso; first [apply N; rewrite H; cbn; tauto|apply N'; rewrite <- H; cbn; tauto].
Qed.

Lemma str_agree u s s' d : stmt_str u s = Ok d -> stmt_str u s' = Ok d -> agree s s'.
Proof.
  intros H H'.
  destruct s as [zs abs f|pm m|p|n sh ms|n m pr|m|n|p|a|a b|a b|a b|n|ln|fn x y i j op|n dp|c| |q|m|ln];
  destruct s' as [zs' abs' f'|pm' m'|p'|n' sh' ms'|n' m' pr'|m'|n'|p'|a'|a' b'|a' b'|a' b'|n'|ln'|fn' x' y' i' j' op'|n' dp'|c'| |q'|m'|ln'];
  cbn [agree]; try exact Logic.I;
  try (exact (coord_agree _ _ _ _ _ _ _ _ _ _ _ _ _ _ H H')); try (exact (offset_agree _ _ _ _ _ _ H H')); try (exact (scale_agree _ _ _ _ _ _ H H'));
  try (destruct a as [a|], b as [b|]; try discriminate H; []); try (destruct a' as [a'|], b' as [b'|]; try discriminate H'; []);
  cbn [stmt_str show_opt_int bind] in H, H'; apply ok_inj in H; apply ok_inj in H'; rewrite <- H in H'; clear H; try discriminate H';
  repeat (apply app_inv_head in H').
  all: try (apply tail_inj in H'; first [exact (eq_sym H')|symmetry; now apply int_inj]; fail).
  - apply cut_eq in H' as [A H']; [|no_char|no_char]. apply cut_eq in H' as [B H']; [|no_char|no_char].
    assert (F : f = f').
    { destruct f as [f1 f2], f' as [f1' f2']. cbn [fst snd] in A, B. apply nat_inj in A; [|lia|lia]. apply nat_inj in B; [|lia|lia]. f_equal; lia. }
    split; [|split; [|exact F]]; destruct zs, zs', abs, abs'; try reflexivity; discriminate H'.
  - destruct m, m'; try reflexivity; discriminate H'.
  - destruct p, p'; try reflexivity; discriminate H'.
  - apply cut_eq in H' as [A B]; [|no_char|no_char]. split; [symmetry; now apply int_inj|]. injection B as B. apply app_inv_tail in B. intros N N'. symmetry. now apply shape_inj.
  - intros N N'. apply cut_eq in H' as [A B]; [|assumption|assumption]. injection B as B. apply app_inv_tail in B. auto.
  - destruct p, p'; try reflexivity; discriminate H'.
  - apply cut_eq in H' as [A B]; [|no_char|no_char]. injection B as B. apply app_inv_tail in B. apply int_inj in A. apply int_inj in B. now subst.
  - destruct q, q'; try reflexivity; discriminate H'.
  - destruct m, m'; try reflexivity; discriminate H'.
Qed.
