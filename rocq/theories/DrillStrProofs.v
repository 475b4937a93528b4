(** Descriptions of the statements of drill files. *)
From Verif Require Import PyBase QcLib NumModel FmtModel ReportModel DumpModel DumpSpec DumpProofs ExcellonModel DrillStrModel DrillStrSpec.
Import ListNotations.
Open Scope list_scope.

Lemma some_inj A (a b : A) : Some a = Some b -> a = b.
Proof. now injection 1. Qed.
Lemma g_blank q : ~ In " "%char (fmt_g 6 q).
Proof. now apply g_no. Qed.
Lemma g_close q : ~ In ">"%char (fmt_g 6 q).
Proof. now apply g_no. Qed.
Lemma part_nearly v v' : both (fun a b => fmt_g 6 a = fmt_g 6 b) v v' -> both (nearly 200000) v v'.
Proof. apply both_impl. exact g_nearly. Qed.
Ltac cut H B := apply part_cut in H as [B H]; [|exact g_blank|heads|heads]; apply part_nearly in B.

Lemma drill_told s s' d : drill_str s = Some d -> drill_str s' = Some d -> drill_agree s s'.
Proof.
  intros H H'. destruct s; try discriminate H; destruct s'; try discriminate H'; cbn [drill_str] in H, H'; cbv zeta in H, H';
    apply some_inj in H; apply some_inj in H'; rewrite <- H' in H; clear H'; try discriminate H; apply app_inv_head in H; cbn [drill_agree].
  - cut H B1. cut H B2. auto.
  - change (T " times, offset X: " ++ ?r) with (" "%char :: T "times, offset X: " ++ r) in H. apply cut_eq in H as [A H]; [|no_char|no_char]. apply int_inj in A.
    apply app_inv_head in H. change (T " Y: " ++ ?r) with (" "%char :: T "Y: " ++ r) in H. apply cut_eq in H as [B H]; [|apply g_blank|apply g_blank].
    apply app_inv_head in H. apply tail_inj in H. apply g_nearly in B. apply g_nearly in H. auto.
  - now apply tail_inj in H.
  - cut H B1. cut H B2. apply app_inv_head in H. cut H B3. cut H B4. auto.
Qed.
