(** Descriptions of netlist records. *)
From Verif Require Import PyBase QcLib IpcModel IpcReprModel IpcReprSpec.
Import ListNotations.
Open Scope list_scope.

Lemma name_cut (p p' v v' : text) : ~ In "="%char p -> ~ In "="%char p' -> p ++ T "=" ++ v = p' ++ T "=" ++ v' -> p = p' /\ v = v'.
Proof.
  revert p'. induction p as [|a p IH]; intros [|b p'] N N' E; cbn in E; injection E as E.
  - auto.
  - exfalso. apply N'. left. now symmetry.
  - exfalso. apply N. now left.
  - subst. destruct (IH p') as [-> ->]; auto; intros K; [apply N|apply N']; now right.
Qed.
Lemma net_cut n n' f f' : n ++ T " Test Record: " ++ feature_name f ++ T ">" = n' ++ T " Test Record: " ++ feature_name f' ++ T ">" -> n = n' /\ f = f'.
Proof.
  destruct f, f'; intros E; try (apply app_inv_tail in E; auto; fail);
    exfalso; apply (f_equal (@rev ascii)) in E; rewrite !(rev_app_distr n), !(rev_app_distr n') in E; cbn in E; discriminate E.
Qed.
Lemma repr_tells s s' : same_kind s s' -> plain_name s -> plain_name s' -> (ipc_repr s = ipc_repr s' <-> ipc_agree s s').
Proof.
  destruct s, s'; cbn [same_kind plain_name ipc_agree ipc_repr]; intros K N N'; try contradiction.
  - split; [intros E; apply app_inv_head in E; now apply app_inv_tail in E|now intros ->].
  - split; [|now intros [-> ->]]. intros E. apply app_inv_head in E. rewrite !app_assoc in E. apply app_inv_tail in E.
    rewrite <- !app_assoc in E. now apply name_cut.
  - tauto.
  - split; [intros E; apply app_inv_head in E; now apply net_cut|now intros [-> ->]].
  - split; [intros E; apply app_inv_head in E; now apply app_inv_tail in E|now intros ->].
  - split; [intros E; apply app_inv_head in E; now apply app_inv_tail in E|now intros ->].
  - split; [intros E; apply app_inv_head in E; now apply app_inv_tail in E|now intros ->].
Qed.
