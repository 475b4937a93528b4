(** Descriptions of tools. *)
From Verif Require Import PyBase QcLib NumModel NumSpec GerberText FmtModel FmtProofs ReprProofs ReportModel ExcellonModel ExcellonFile ToolReprModel ToolReprSpec.
From Verif Require ExcellonMore ExcellonProofs GerberTextProofs.
From Coq Require Import Lia.
Import ListNotations.
Open Scope list_scope.

Lemma show2_reads n : py_int (show2 n) = Ok n.
Proof.
  destruct (Z_lt_le_dec n 0) as [N|N].
  - unfold show2. destruct (Z.leb_spec 0 n) as [X|X]; [lia|]. cbn [andb]. now apply GerberTextProofs.py_int_show_neg.
  - destruct (ExcellonMore.show2_spec n N) as (D & V & L & _). rewrite ExcellonProofs.py_int_digits; [now rewrite V|exact D|]. intros E. rewrite E in L. cbn in L. lia.
Qed.
Lemma tool_described t x : t_diam t = Some x -> exists d, tool_repr t = Ok d /\ describes t d.
Proof.
  intros E. unfold tool_repr. rewrite E. cbv zeta. eexists. split; [reflexivity|].
  set (p := Nat.max 1 (snd (xs_format (t_set t)))). assert (P : (1 <= p)%nat) by (subst p; lia).
  exists (show2 (t_num t)), (fst (xs_format (t_set t)) - List.length (fmt_g p x))%nat, (fmt_g p x), x.
  split; [unfold fill; rewrite <- !app_assoc; destruct (xs_units (t_set t)); reflexivity|]. split; [apply show2_reads|]. split; [exact E|].
  fold p. exists (round_sig_signed p x). split; [now apply py_float_fmt_g|now apply round_sig_signed_relative].
Qed.
