(** Descriptions of hits. *)
From Verif Require Import PyBase QcLib NumModel NumSpec GerberText FmtModel FmtProofs ReprProofs ReportModel ExcellonModel ExcellonFile DumpSpec ToolReprModel ToolReprSpec ToolReprProofs HitStrModel HitStrSpec.
From Verif Require DumpProofs ExcellonMore GerberTextProofs.
From Coq Require Import Lia.
Import ListNotations.
Open Scope list_scope.

Lemma ok_inj A (a b : A) : Ok a = Ok b -> a = b.
Proof. now injection 1. Qed.
Lemma show2_colon n : ~ In ":"%char (show2 n).
Proof.
  intros X. destruct (Z_lt_le_dec n 0) as [N|N].
  - unfold show2 in X. destruct (Z.leb_spec 0 n) as [Y|Y]; [lia|]. cbn [andb] in X. apply DumpProofs.int_chars in X as [X|X]; discriminate X.
  - destruct (ExcellonMore.show2_spec n N) as (D & _). pose proof (proj1 (Forall_forall _ _) D _ X) as Y. cbn in Y. revert Y. clear. vm_compute. intuition (try discriminate; congruence).
Qed.
Lemma blanks_cut n : forall m (s s' : text), ~ In " "%char s -> ~ In " "%char s' -> repeat " "%char n ++ s = repeat " "%char m ++ s' -> s = s'.
Proof.
  induction n as [|n IH]; intros [|m] s s' N N' E; cbn in E.
  - exact E.
  - exfalso. apply N. rewrite E. now left.
  - exfalso. apply N'. rewrite <- E. now left.
  - injection E as E. now apply (IH m).
Qed.
Lemma size_blank p v : (1 <= p)%nat -> ~ In " "%char (fmt_g p v).
Proof. intros P X. destruct (GerberTextProofs.fmt_g_gchars p v P) as [H _]. rewrite forallb_forall in H. specialize (H _ X). discriminate H. Qed.
Lemma repr_alike t t' d : tool_repr t = Ok d -> tool_repr t' = Ok d -> tools_alike t t'.
Proof.
  unfold tool_repr. destruct (t_diam t) as [x|] eqn:E; [|discriminate]. destruct (t_diam t') as [x'|] eqn:E'; [|discriminate]. cbv zeta.
  set (p := Nat.max 1 (snd (xs_format (t_set t)))). set (p' := Nat.max 1 (snd (xs_format (t_set t')))).
  assert (P : (1 <= p)%nat) by (subst p; lia). assert (P' : (1 <= p')%nat) by (subst p'; lia).
  intros H H'. apply ok_inj in H. apply ok_inj in H'. rewrite <- H' in H. clear H'. apply app_inv_head in H.
  change (T ": " ++ ?r) with (":"%char :: " "%char :: r) in H.
  apply DumpProofs.cut_eq in H as [A H]; [|apply show2_colon|apply show2_colon]. injection H as H.
  assert (N : t_num t = t_num t') by (pose proof (show2_reads (t_num t)) as R; rewrite A, show2_reads in R; now injection R).
  assert (U : xs_units (t_set t) = xs_units (t_set t')).
  { destruct (xs_units (t_set t)), (xs_units (t_set t')); try reflexivity; exfalso;
      apply (f_equal (@rev ascii)) in H; rewrite !rev_app_distr in H; cbn in H; discriminate H. }
  rewrite U in H. apply app_inv_tail in H. unfold fill in H.
  apply blanks_cut in H; [|now apply size_blank|now apply size_blank].
  split; [exact N|]. split; [exact U|]. exists x, x', (fmt_g p x). split; [exact E|]. split; [exact E'|]. fold p p'. split.
  - exists (round_sig_signed p x). split; [now apply py_float_fmt_g|now apply round_sig_signed_relative].
  - rewrite H. exists (round_sig_signed p' x'). split; [now apply py_float_fmt_g|now apply round_sig_signed_relative].
Qed.
Lemma tool_told s s' o o' d : tool_text s o = Ok d -> tool_text s' o' = Ok d -> same_tools s s' o o'.
Proof.
  assert (Q : forall t, tool_repr t <> Ok (T "None")) by (intros t; unfold tool_repr; destruct (t_diam t); discriminate).
  unfold tool_text, tool_at, tget. destruct o as [l|], o' as [l'|]; cbn [same_tools].
  - destruct (nth_error s l) as [t|]; [|discriminate]. destruct (nth_error s' l') as [t'|]; [|discriminate]. cbn [bind].
    intros H H'. exists t, t'. split; [reflexivity|]. split; [reflexivity|]. exact (repr_alike _ _ _ H H').
  - destruct (nth_error s l) as [t|]; [|discriminate]. cbn [bind]. intros H H'. rewrite <- H' in H. exact (Q _ H).
  - destruct (nth_error s' l') as [t|]; [|discriminate]. cbn [bind]. intros H H'. rewrite <- H in H'. exact (Q _ H').
  - trivial.
Qed.
Lemma hit_told s s' o o' p p' d : hit_str s o p = Ok d -> hit_str s' o' p' = Ok d ->
  close 1000000 (fst p) (fst p') /\ close 1000000 (snd p) (snd p') /\ same_tools s s' o o'.
Proof.
  unfold hit_str. destruct (tool_text s o) as [a|] eqn:A; [|discriminate]. destruct (tool_text s' o') as [b|] eqn:B; [|discriminate]. cbn [bind].
  intros H H'. apply ok_inj in H. apply ok_inj in H'. rewrite <- H' in H. clear H'. apply app_inv_head in H.
  change (T ", " ++ ?r) with (","%char :: " "%char :: r) in H. apply DumpProofs.cut_eq in H as [X H]; [|now apply DumpProofs.f_no|now apply DumpProofs.f_no].
  injection H as H. change (T ") {" ++ ?r) with (")"%char :: T " {" ++ r) in H. apply DumpProofs.cut_eq in H as [Y H]; [|now apply DumpProofs.f_no|now apply DumpProofs.f_no].
  injection H as H. apply app_inv_tail in H. subst b.
  split; [now apply DumpProofs.f_close|]. split; [now apply DumpProofs.f_close|]. exact (tool_told _ _ _ _ _ A B).
Qed.
