(** C179: descriptions of settings. *)
From Verif Require Import PyBase SettingsModel SettingsSpec SettingsProofs SetStrModel SetStrProofs.
Import ListNotations.
Open Scope list_scope.

(** Two settings objects, however made, have the same description exactly when they agree on every key. *)
Theorem C179_tells : forall n u zs f zr a s0 ops n' u' zs' f' zr' a' s0' ops',
  file_settings n u zs f zr a = Ok s0 -> Forall documented ops ->
  file_settings n' u' zs' f' zr' a' = Ok s0' -> Forall documented ops' ->
  let s := fold_left run_assign ops s0 in let s' := fold_left run_assign ops' s0' in
  settings_str s = settings_str s' <-> forall k, In k key_names -> getitem s (T k) = getitem s' (T k).
Proof.
  intros n u zs f zr a s0 ops n' u' zs' f' zr' a' s0' ops' H D H' D' s s'.
  exact (iff_trans (str_tells _ _ _ _ _ _ _ _ _ _ _ _ _ _ _ _ H D H' D') (C66_lemma _ _ _ _ _ _ _ _ _ _ _ _ _ _ _ _ H D H' D')).
Qed.
Print Assumptions C179_tells.

Example C179_ex : exists s, file_settings (S "absolute") (S "metric") None (VSeq [3; 4]%Z) (Some (S "trailing")) (S "degrees") = Ok s /\
  settings_str s = T "<Settings: metric absolute leading (3, 4) degrees>" /\
  Forall documented [Item (T "units") (S "inch"); AttrZeros (S "leading")] /\
  settings_str (fold_left run_assign [Item (T "units") (S "inch"); AttrZeros (S "leading")] s) = T "<Settings: inch absolute trailing (3, 4) degrees>".
Proof. eexists. split; [vm_compute; reflexivity|]. split; [vm_compute; reflexivity|]. split; [repeat constructor; cbn; auto|vm_compute; reflexivity]. Qed.
