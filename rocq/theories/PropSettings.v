(** Property theorems C09-C12: file settings. *)
From Verif Require Import PyBase SettingsModel SettingsSpec SettingsProofs.

(** C09 *)
Theorem C09_zeros_complementary :
  forall n u zs f zr a s0 ops,
  file_settings n u zs f zr a = Ok s0 -> Forall documented ops ->
  let s := fold_left run_assign ops s0 in
  exists z r, getitem s (T "zero_suppression") = Ok z /\ getitem s (T "zeros") = Ok r /\ opposite z r.
Proof. exact C09_lemma. Qed.
Print Assumptions C09_zeros_complementary.

Example C09_ex : exists s0,
  file_settings (S "absolute") (S "metric") None (VSeq [3; 3]%Z) (Some (S "trailing")) (S "degrees") = Ok s0 /\
  Forall documented [AttrZeros (S "leading"); Item (T "zeros") (S "bogus");
                     AttrZeroSuppression (S "leading"); Item (T "units") (S "inch")].
Proof. eexists. split; [vm_compute; reflexivity|]. repeat constructor; simpl; auto. Qed.

(** C10 *)
Theorem C10_invalid_value_rejected :
  forall s k v, In k key_names -> ~ valid_value k v -> setitem s (T k) v = (s, Some ValueError).
Proof. exact C10_invalid_lemma. Qed.
Print Assumptions C10_invalid_value_rejected.

Theorem C10_unknown_key_rejected :
  forall s k v, ~ In k known_keys -> setitem s k v = (s, Some KeyError) /\ getitem s k = Err KeyError.
Proof. exact C10_unknown_lemma. Qed.
Print Assumptions C10_unknown_key_rejected.

Theorem C10_valid_value_local :
  forall s k v, In k key_names -> valid_value k v ->
  exists s', setitem s (T k) v = (s', None) /\
    getitem s' (T k) = Ok v /\
    (forall k', In k' key_names -> k' <> k -> ~ (is_zero_key k /\ is_zero_key k') ->
       getitem s' (T k') = getitem s (T k')) /\
    (forall k', is_zero_key k -> is_zero_key k' -> k' <> k ->
       exists w, getitem s' (T k') = Ok w /\ opposite v w).
Proof. exact C10_valid_lemma. Qed.
Print Assumptions C10_valid_value_local.

Example C10_ex : In "units"%string key_names /\ valid_value "units" (S "metric") /\
  ~ valid_value "units" (S "feet") /\ ~ In (T "colour") known_keys.
Proof.
  simpl. repeat split; auto 10; intros H; repeat destruct H as [H|H]; try discriminate; contradiction.
Qed.

(** C11 *)
Theorem C11_constructor :
  forall n u zs f zr a,
  (acceptable n u zs f zr a ->
   exists s z, file_settings n u zs f zr a = Ok s /\
     getitem s (T "notation") = Ok n /\ getitem s (T "units") = Ok u /\
     getitem s (T "format") = Ok f /\ getitem s (T "angle_units") = Ok a /\
     getitem s (T "zero_suppression") = Ok z /\ reported_zs zs zr z) /\
  (~ acceptable n u zs f zr a -> file_settings n u zs f zr a = Err ValueError).
Proof. exact C11_lemma. Qed.
Print Assumptions C11_constructor.

Example C11_ex :
  acceptable (S "incremental") (S "inch") (Some (S "bogus")) (VSeq [2; 4]%Z) (Some (S "leading")) (S "radians") /\
  ~ acceptable (S "absolute") (S "inch") (Some (S "leading")) (VSeq [2; 4]%Z) (Some (S "leading")) (S "degrees").
Proof.
  split; unfold acceptable; simpl.
  - repeat split; auto. discriminate.
  - intros (_ & _ & _ & _ & H). now apply H.
Qed.

(** C12: with the zero suppression set to 'none' (as the FS statement of a Gerber file may do), the
    file object reports 'leading'. *)
Theorem C12_camfile_settings_refuted :
  exists n u zs f zr a s0 s c s',
    file_settings n u zs f zr a = Ok s0 /\ s = set_zero_suppression (S "none") s0 /\
    cam_init (Some s) = Ok c /\ cam_settings c = Ok s' /\
    getitem s' (T "zero_suppression") <> getitem s (T "zero_suppression").
Proof. exact C12_refuted_lemma. Qed.
Print Assumptions C12_camfile_settings_refuted.

(** What holds: settings made by the constructor and any key assignments are carried faithfully.
    Missing: values put in by unchecked attribute assignment. *)
Theorem C12_camfile_settings_partial :
  forall n u zs f zr a s0 ops,
  file_settings n u zs f zr a = Ok s0 ->
  let s := fold_left (fun s kv => fst (setitem s (fst kv) (snd kv))) ops s0 in
  exists c s', cam_init (Some s) = Ok c /\ cam_settings c = Ok s' /\
    forall k, In k ["notation"; "units"; "zero_suppression"; "zeros"; "format"]%string ->
      getitem s' (T k) = getitem s (T k).
Proof. exact C12_lemma. Qed.
Print Assumptions C12_camfile_settings_partial.

Example C12_ex : exists s0,
  file_settings (S "absolute") (S "metric") (Some (S "leading")) (VSeq [3; 4]%Z) None (S "degrees") = Ok s0.
Proof. eexists. vm_compute. reflexivity. Qed.

(** C66: two settings objects, however made, compare equal exactly when they agree on every key. *)
Theorem C66_equality : forall n u zs f zr a s0 ops n' u' zs' f' zr' a' s0' ops',
  file_settings n u zs f zr a = Ok s0 -> Forall documented ops ->
  file_settings n' u' zs' f' zr' a' = Ok s0' -> Forall documented ops' ->
  let s := fold_left run_assign ops s0 in let s' := fold_left run_assign ops' s0' in
  settings_eq s s' = true <-> forall k, In k key_names -> getitem s (T k) = getitem s' (T k).
Proof. exact C66_lemma. Qed.
Print Assumptions C66_equality.

Example C66_ex : exists a b c,
  file_settings (S "absolute") (S "metric") None (VSeq [3; 3]%Z) (Some (S "trailing")) (S "degrees") = Ok a /\
  file_settings (S "absolute") (S "metric") (Some (S "leading")) (VSeq [3; 3]%Z) None (S "degrees") = Ok b /\
  file_settings (S "absolute") (S "metric") (Some (S "trailing")) (VSeq [3; 3]%Z) None (S "degrees") = Ok c /\
  settings_eq a b = true /\ settings_eq a c = false.
Proof. do 3 eexists. repeat split; vm_compute; reflexivity. Qed.
