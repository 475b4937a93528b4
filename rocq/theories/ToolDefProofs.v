(** All parameters of tool definitions. *)
From Verif Require Import PyBase QcLib NumModel NumSpec NumProofs FmtModel GerberText ExcellonModel ExcellonFile ExcellonSpec ExcellonProofs ExcellonRun ExcellonMore.
From Coq Require Import Lia.
Open Scope list_scope.
Open Scope Qc_scope.

Definition or_old {A} (n o : option A) : option A := match n with Some v => Some v | None => o end.
Lemma set_params_all i d z (Hr : readable i d) se l r : params_say i d z l r -> xs_format se = (i, d) -> xs_zeros se = z -> forall n t,
  set_params se (commands r) n t = Ok (n, mkTool (t_num t) (or_old (param "B"%char l) (t_retract t)) (or_old (param "F"%char l) (t_feed t)) (or_old (param "H"%char l) (t_maxhit t))
    (or_old (option_map (fun v => zq 1000 * v) (param "S"%char l)) (t_rpm t)) (or_old (param "C"%char l) (t_diam t)) (or_old (param "Z"%char l) (t_depth t)) (t_plated t) (t_hits t) (t_set t)).
Proof.
  intros P Ef Ez. induction P as [|c s v l r I R P IH]; intros n t; [destruct t; reflexivity|].
  rewrite commands_param; [|exact (proj2 (letters_num _ I))|exact (proj1 (reads_nums _ _ _ _ _ R))|exact (params_head _ _ _ _ _ P)].
  assert (PV : parse_value se s = Ok v) by (eapply reads_parse; eassumption).
  cbn [set_params param]. unfold set_param. cbv zeta.
  repeat destruct I as [<-|I]; try destruct I;
    repeat match goal with |- context [ceq ?a ?b] => let v := eval vm_compute in (ceq a b) in change (ceq a b) with v end;
    cbn iota; rewrite PV; cbn [bind fst snd]; rewrite IH; cbn [t_num t_retract t_feed t_maxhit t_rpm t_diam t_depth t_plated t_hits t_set]; f_equal; f_equal; f_equal;
    repeat match goal with |- context [param ?c l] => destruct (param c l) end; reflexivity.
Qed.
Lemma read_tool_all i d z (Hr : readable i d) se p x line : defines i d z x line -> xs_format se = (i, d) -> xs_zeros se = z ->
  read_tool se p line = Ok (mkTool (d_num x) (param "B"%char (d_params x)) (param "F"%char (d_params x)) (param "H"%char (d_params x))
    (option_map (fun v => zq 1000 * v) (param "S"%char (d_params x))) (param "C"%char (d_params x)) (param "Z"%char (d_params x)) p 0 se).
Proof.
  intros [n ds ps t Dd Nd En P] Ef Ez. unfold read_tool. cbn [T list_ascii_of_string app].
  rewrite commands_param; [|reflexivity|now apply digits_nums|exact (params_head _ _ _ _ _ P)]. cbn [set_params].
  unfold set_param at 1. cbv zeta.
  repeat match goal with |- context [ceq ?a ?b] => let v := eval vm_compute in (ceq a b) in change (ceq a b) with v end.
  cbn iota. rewrite py_int_s_digits by auto. cbn [bind fst snd t_num t_retract t_feed t_maxhit t_rpm t_diam t_depth t_plated t_hits t_set].
  rewrite (set_params_all i d z Hr se ps t P Ef Ez). cbn [bind fst snd t_num t_retract t_feed t_maxhit t_rpm t_diam t_depth t_plated t_hits t_set d_num d_params]. rewrite En.
  repeat match goal with |- context [param ?c ps] => destruct (param c ps) end; reflexivity.
Qed.
Lemma tool_params_all t : param "B"%char (tool_params t) = t_retract t /\ param "F"%char (tool_params t) = t_feed t /\ param "H"%char (tool_params t) = t_maxhit t /\
  param "S"%char (tool_params t) = option_map (fun r => r / zq 1000) (t_rpm t) /\ param "Z"%char (tool_params t) = t_depth t.
Proof.
  unfold tool_params. rewrite !param_app. destruct (t_retract t), (t_feed t), (t_maxhit t), (t_rpm t), (t_diam t), (t_depth t); repeat split; reflexivity.
Qed.
Lemma thousand r : zq 1000 * (r / zq 1000) = r.
Proof. unfold Qcdiv. transitivity (r * (zq 1000 * / zq 1000)); [ring|]. rewrite Qcmult_inv_r by (vm_compute; discriminate). ring. Qed.
Lemma tool_roundtrip i d se p t : usable_format i d -> xs_format se = (i, d) -> writable_tool i d t ->
  exists line, write_tool se t = Ok line /\
    read_tool se p line = Ok (mkTool (t_num t) (t_retract t) (t_feed t) (t_maxhit t) (t_rpm t) (t_diam t) (t_depth t) p 0 se).
Proof.
  intros U F W. destruct (write_tool_defines i d se t U F W) as (line & E & D). exists line. split; [exact E|].
  rewrite (read_tool_all i d (xs_zeros se) (usable_readable i d U) se p _ line D F eq_refl). cbn [d_num d_params]. destruct (tool_params_all t) as (-> & -> & -> & -> & ->). rewrite tool_params_c.
  destruct (t_rpm t) as [r|]; cbn [option_map]; [|reflexivity]. now rewrite thousand.
Qed.
