(** Lemmas about the tools of a drill file while it is read on. *)
From Verif Require Import PyBase QcLib NumModel NumSpec NumProofs GerberText ExcellonModel ExcellonFile ExcellonSpec ExcellonProofs ExcellonRun ToolDefProofs KeptSpec.
From Coq Require Import Lia.
Open Scope list_scope.

Lemma kept_refl t : kept t t.
Proof. unfold kept. repeat split; auto. Qed.
Lemma kept_trans a b c : kept a b -> kept b c -> kept a c.
Proof. unfold kept. intros (A1 & A2 & A3 & A4 & A5 & A6 & A7 & A8 & A9) (B1 & B2 & B3 & B4 & B5 & B6 & B7 & B8 & B9). repeat split; try congruence; [lia|]. intros N. rewrite B9; [now apply A9|]. rewrite A9 by exact N. exact N. Qed.
Definition keeps (s s' : list tool) : Prop := forall l t, tget s l = Some t -> exists t', tget s' l = Some t' /\ kept t t'.
Lemma keeps_refl s : keeps s s.
Proof. intros l t G. exists t. split; [exact G|apply kept_refl]. Qed.
Lemma keeps_app s r : keeps s (s ++ r).
Proof. intros l t G. exists t. split; [|apply kept_refl]. unfold tget in *. rewrite nth_error_app1; [exact G|]. apply nth_error_Some. congruence. Qed.
Lemma keeps_tset s l f : (forall t, kept t (f t)) -> keeps s (tset s l f).
Proof.
  intros K k t G. destruct (Nat.eq_dec l k) as [->|N]; [exists (f t); split; [now apply tget_tset_same|apply K]|]. exists t. rewrite tget_tset_other by exact N. split; [exact G|apply kept_refl].
Qed.
Lemma keeps_trans a b c : keeps a b -> keeps b c -> keeps a c.
Proof. intros A B l t G. destruct (A l t G) as (t1 & G1 & K1). destruct (B l t1 G1) as (t2 & G2 & K2). exists t2. split; [exact G2|]. eapply kept_trans; eassumption. Qed.

Section Lines.
Variable holesize : unit_ -> text -> res (option tool).
Lemma ev_keeps f a b : ev holesize f a b -> keeps (x_store a) (x_store b).
Proof.
  intros E. induction E as [a b H| | | | | | | | | ]; cbn.
  - destruct H as (E1 & _). rewrite <- E1. apply keeps_refl.
  - eapply keeps_trans; eassumption.
  - apply keeps_tset. intros t0. unfold kept. cbn. repeat split; auto.
  - apply keeps_refl.
  - apply keeps_refl.
  - apply keeps_app.
  - destruct (dget l (x_tools a)); [|apply keeps_refl]. apply keeps_tset. intros t0. destruct (t_plated t0) eqn:Pt; [apply kept_refl|]. unfold kept. cbn. repeat split; auto. intros N. congruence.
  - apply keeps_app.
  - apply keeps_tset. intros t0. unfold kept. cbn. repeat split; auto; lia.
  - apply keeps_refl.
Qed.
Lemma lines_keep ls : forall st st', parse_lines holesize st ls = Ok st' -> keeps (x_store st) (x_store st').
Proof.
  induction ls as [|t ls IH]; intros st st' H; cbn [parse_lines] in H; [apply ok_inj in H; subst; apply keeps_refl|].
  apply bind_ok in H as (s & H & K). apply parse_line_ev in H. eapply keeps_trans; [eapply ev_keeps; exact H|now apply IH].
Qed.
Lemma split_on_cat c a : forall b, split_on c (a ++ c :: b) = split_on c a ++ split_on c b.
Proof.
  induction a as [|x a IH]; intros b; cbn [app split_on].
  - rewrite ceq_refl. destruct (split_on c b) as [|w ws] eqn:E; [|reflexivity]. exfalso. destruct b as [|y b]; cbn in E; [discriminate|]. destruct (split_on c b); [discriminate|]. destruct (ceq y c); discriminate.
  - rewrite IH. destruct (split_on c a) as [|w ws] eqn:E; [|destruct (ceq x c); reflexivity]. exfalso. destruct a as [|y a]; cbn in E; [discriminate|]. destruct (split_on c a); [discriminate|]. destruct (ceq y c); discriminate.
Qed.
Lemma file_keeps se ext data more f f' : parse_raw holesize se ext data = Ok f -> parse_raw holesize se ext (data ++ nl :: more) = Ok f' -> keeps (xf_store f) (xf_store f').
Proof.
  unfold parse_raw. intros H H'. apply bind_ok in H as (st & E & H). apply bind_ok in H as (se1 & _ & H). apply ok_inj in H. subst f.
  apply bind_ok in H' as (st' & E' & H'). apply bind_ok in H' as (se2 & _ & H'). apply ok_inj in H'. subst f'. cbn.
  unfold lines_of in E'. rewrite split_on_cat, map_app, parse_lines_app in E'. unfold lines_of in E. rewrite E in E'. cbn [bind] in E'. exact (lines_keep _ _ _ E').
Qed.
Lemma ext_keeps se ext data f : parse_raw holesize se ext data = Ok f -> keeps ext (xf_store f).
Proof.
  unfold parse_raw. intros H. apply bind_ok in H as (st & E & H). apply bind_ok in H as (se1 & _ & H). apply ok_inj in H. subst f. exact (lines_keep _ _ _ E).
Qed.

Lemma definition_step i d z st x line : readable i d -> defines i d z x line -> x_state st = SHeader -> x_prev st = [] -> x_format st = [Z.of_nat i; Z.of_nat d] -> x_zeros st = z ->
  exists st1 t, parse_line holesize st line = Ok st1 /\ x_store st1 = x_store st ++ [t] /\ dget (d_num x) (x_tools st1) = Some (List.length (x_store st)) /\
    t_num t = d_num x /\ t_retract t = param "B"%char (d_params x) /\ t_feed t = param "F"%char (d_params x) /\ t_maxhit t = param "H"%char (d_params x) /\
    t_rpm t = option_map (fun v => zq 1000 * v)%Qc (param "S"%char (d_params x)) /\ t_diam t = param "C"%char (d_params x) /\ t_depth t = param "Z"%char (d_params x) /\ t_hits t = 0%nat.
Proof.
  intros R X Hs Hp Hf Hz. assert (SE := settings_fmt st i d Hf). set (se := mkXset _ _ _ _) in SE.
  pose proof (read_tool_all i d z R se (x_plated st) x line X eq_refl Hz) as RT.
  assert (CH : forall c, num_char c = false -> ~ In c tool_letters -> c <> "T"%char -> ~ In c line /\ exists r, line = "T"%char :: r).
  { destruct X as [n ds ps r Dd Nd En P]. intros c H1 H2 H3. split; [|cbn; eauto].
    cbn [T list_ascii_of_string app]. intros [I|I]; [congruence|]. apply in_app_or in I as [I|I]; [exact (nums_not_in _ _ (digits_nums _ Dd) H1 I)|].
    exact (params_chars _ _ _ _ _ _ P H1 H2 I). }
  assert (XL : exists r, line = "T"%char :: r) by (apply (CH "I"%char); [reflexivity|cbn; intuition discriminate|discriminate]).
  destruct XL as [r ->].
  assert (NC : forall c, num_char c = false -> ~ In c tool_letters -> c <> "T"%char -> ~ In c r) by (intros c H1 H2 H3 I; apply (proj1 (CH c H1 H2 H3)); now right).
  rewrite dispatch_t; [|exact Hp|apply NC; [reflexivity|cbn; intuition discriminate|discriminate]..].
  assert (IH : is_header st = true) by (unfold is_header; now rewrite Hs). rewrite IH. unfold tool_line.
  assert (CM : ~ In ","%char ("T"%char :: r)) by (apply (CH ","%char); [reflexivity|cbn; intuition discriminate|discriminate]).
  assert (C1 : text_in (T ",OFF") ("T"%char :: r) = false) by (now apply text_in_absent).
  assert (C2 : text_in (T ",ON") ("T"%char :: r) = false) by (now apply text_in_absent). rewrite C1, C2. cbn [orb].
  rewrite SE. cbn [bind]. rewrite RT. cbn [bind t_plated t_num]. eexists _, _. split; [reflexivity|]. cbn [x_store with_tools add_stmt x_tools]. split; [reflexivity|].
  destruct (x_plated st); [|destruct (dget (d_num x) (x_ext st)) as [k|]; [destruct (tget (x_store st) k)|]]; cbn [with_plated t_num t_retract t_feed t_maxhit t_rpm t_diam t_depth t_hits]; rewrite dget_dput_same; repeat split.
Qed.
End Lines.
