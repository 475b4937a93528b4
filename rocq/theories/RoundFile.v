(** A converted file that is written and read again. *)
From Verif Require Import NumProofs GerberEvalProofs RoundSpec RoundText RoundImage ScaleSpec ScaleProofs.
Open Scope list_scope.
Open Scope Qc_scope.

Lemma evaluated_definitions fc : forall l past st st' l', inv fc past st -> evaluate_all fc st l = Ok (st', l') -> definitions_ok past l.
Proof.
  induction l as [|s l IH]; intros past st st' l' J H; cbn [evaluate_all] in H; [exact I|].
  destruct (evaluate fc st s) as [[st1 s1]|] eqn:E; [|discriminate]. cbn [bind] in H.
  destruct (evaluate_all fc st1 l) as [[st2 l2]|] eqn:E2; [|discriminate]. split.
  - destruct s; auto; cbn [evaluate evaluate_param bind] in E.
    + unfold define_aperture in E. destruct (build_aperture (g_macros st) shape mods) as [sh|] eqn:B; [|discriminate].
      destruct (build_definition _ _ _ _ _ (i_macros _ _ _ J) B) as (dims & rest & -> & D). eauto.
    + destruct (read_macro _) as [i|] eqn:B; [eauto|discriminate].
  - destruct (evaluate_step _ _ _ _ _ _ J E) as (J1 & _). eapply IH; [exact J1|exact E2].
Qed.
Lemma opened_definitions fc l f : open_file fc l = Ok f -> definitions_ok [] l.
Proof.
  unfold open_file. intros H. destruct (evaluate_all fc g_init l) as [[st l']|] eqn:E; [|discriminate]. exact (evaluated_definitions fc l [] g_init st l' (inv_init fc) E).
Qed.
Lemma C130_lemma fc w st l f f' ms : proportional fc -> declared w l -> Forall plain_apertures l ->
  open_file fc l = Ok f -> image fc [] l = Some ms -> file_to (other w) f = Ok f' ->
  announceable st -> Forall (fitting st) (map fst (f_stmts f')) -> format_before_coords (map fst (f_stmts f')) ->
  exists t l' ps, write_file st (map fst (f_stmts f')) = Ok t /\ (forall fs, parse_text fs t = Ok (l', ps)) /\
    exists g' k' ms', evaluate_all fc g_init l' = Ok (g', k') /\ shown g' = map Some ms' /\
      Forall2 (near (half_ulp (snd (p_fmt st)))) (map (enlarge (factor (other w)) (other w)) ms) ms'.
Proof.
  intros P D PA O IM FT An F B. destruct (C126_lemma fc w l f f' ms P D PA O IM FT) as (IM2 & f2 & O2 & _).
  destruct (C129_lemma st _ An F B) as (t & l' & W & _ & Pa & _ & E). exists t, l'. eexists. split; [exact W|]. split; [exact Pa|].
  specialize (E fc (opened_definitions _ _ _ O2)). rewrite IM2 in E. exact E.
Qed.
