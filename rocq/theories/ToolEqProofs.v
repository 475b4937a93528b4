(** Tools that drill alike. *)
From Coq Require Import Lia.
From Verif Require Import PyBase QcLib NumModel NumSpec NumProofs FmtModel FmtProofs Regex GerberText GerberTextProofs ExcellonModel ExcellonSpec ExcellonProofs ExcellonFile ToolSpec ToolProofs ToolDefProofs ToolEqModel ToolEqSpec.
From Verif Require MacroProofs HeadRun.
Import ListNotations.
Open Scope list_scope.
Open Scope Qc_scope.

Lemma opt_eq_iff a b : opt_eq a b = true <-> a = b.
Proof. destruct a as [x|], b as [y|]; cbn; try (split; [discriminate|discriminate]); [|tauto]. rewrite qceq_true. split; [now intros ->|congruence]. Qed.
Lemma plating_eq_iff a b : plating_eq a b = true <-> a = b.
Proof. destruct a as [[]|], b as [[]|]; cbn; split; (reflexivity || discriminate). Qed.
Lemma same_unit_iff a b : same_unit a b = true <-> a = b.
Proof. destruct a, b; cbn; split; (reflexivity || discriminate). Qed.
Lemma equivalent_iff t t' : exists r, equivalent (of_file t) (of_file t') = Ok r /\ (r = true <-> alike t t').
Proof.
  assert (A : alike t t' <-> opt_eq (t_diam t) (t_diam t') = true /\ opt_eq (t_feed t) (t_feed t') = true /\ opt_eq (t_retract t) (t_retract t') = true /\ opt_eq (t_rpm t) (t_rpm t') = true /\
    opt_eq (t_depth t) (t_depth t') = true /\ opt_eq (t_maxhit t) (t_maxhit t') = true /\ plating_eq (t_plated t) (t_plated t') = true /\ same_unit (xs_units (t_set t)) (xs_units (t_set t')) = true).
  { unfold alike. rewrite !opt_eq_iff, plating_eq_iff, same_unit_iff. tauto. }
  unfold equivalent, of_file. cbn [l_tool l_set]. set (u := same_unit _ _) in *.
  destruct (opt_eq (t_diam t) (t_diam t')), (opt_eq (t_feed t) (t_feed t')), (opt_eq (t_retract t) (t_retract t')), (opt_eq (t_rpm t) (t_rpm t')),
    (opt_eq (t_depth t) (t_depth t')), (opt_eq (t_maxhit t) (t_maxhit t')), (plating_eq (t_plated t) (t_plated t')); cbn [andb]; eexists; (split; [reflexivity|]); rewrite A; intuition discriminate.
Qed.
Lemma equivalent_true t t' : equivalent (of_file t) (of_file t') = Ok true <-> alike t t'.
Proof. destruct (equivalent_iff t t') as (r & -> & H). rewrite <- H. split; [intros E; now injection E|now intros ->]. Qed.
Lemma conv_alike u t t' : alike t t' -> alike (conv_tool u t) (conv_tool u t').
Proof.
  intros (A & B & C & D & E & F & G & H). unfold conv_tool. rewrite H. destruct (same_unit _ u); [repeat split; assumption|].
  unfold alike. cbn. rewrite A, B, C, D, E, F, G. tauto.
Qed.
Lemma inch_inj a b : inch a = inch b -> a = b.
Proof. intros H. apply (f_equal metric) in H. now rewrite !metric_inch in H. Qed.
Lemma metric_inj a b : metric a = metric b -> a = b.
Proof. intros H. apply (f_equal inch) in H. now rewrite !inch_metric in H. Qed.
Lemma conv_inj u a b : conv u a = conv u b -> a = b.
Proof. destruct u; [apply inch_inj|apply metric_inj]. Qed.
Lemma alike_conv u t t' : xs_units (t_set t) = xs_units (t_set t') -> (alike (conv_tool u t) (conv_tool u t') <-> alike t t').
Proof.
  intros H. split; [|apply conv_alike]. unfold conv_tool. rewrite <- H. destruct (same_unit _ u); [tauto|]. unfold alike. cbn.
  intros (A & B & C & D & E & F & G & _). repeat split; try assumption. destruct (t_diam t), (t_diam t'); cbn in A; try discriminate; [|reflexivity].
  injection A as A. f_equal. now apply (conv_inj u).
Qed.
Lemma conv_of_file u t : conv_loose u (of_file t) = Ok (of_file (conv_tool u t)).
Proof.
  unfold conv_loose, of_file. cbn [l_set l_tool]. f_equal. assert (W : with_settings (t_set t) t = t) by now destruct t. rewrite W. f_equal. f_equal.
  unfold conv_tool. destruct (same_unit _ u) eqn:S; [|reflexivity]. apply same_unit_iff in S. subst u. now destruct (t_set t).
Qed.
Lemma copy_written se t : write_loose (Some se) (from_tool (of_file t)) = write_tool se t.
Proof. reflexivity. Qed.
Lemma copy_compared t : equivalent (of_file t) (from_tool (of_file t)) = Err AttributeError /\ equivalent (from_tool (of_file t)) (of_file t) = Err AttributeError.
Proof.
  assert (R : forall o, opt_eq o o = true) by (intros; now apply opt_eq_iff). assert (P : forall o, plating_eq o o = true) by (intros; now apply plating_eq_iff).
  unfold equivalent, from_tool, of_file. cbn [l_tool l_set t_diam t_feed t_retract t_rpm t_depth t_maxhit t_plated]. rewrite !R, !P. split; reflexivity.
Qed.

(** ** Linked tools *)
Lemma mapM_app_one {A B} (f : A -> res B) x y l r : f x = Ok y -> mapM f l = Ok r -> mapM f (x :: l) = Ok (y :: r).
Proof. intros E M. cbn [mapM]. rewrite E. cbn [bind]. rewrite M. reflexivity. Qed.
Lemma number_slash ds n : number ds n -> ~ In "/"%char ds.
Proof. intros (D & _ & _) I. apply digit_string_iff in D. pose proof (NumProofs.all_digits_in _ _ D I). discriminate. Qed.
Lemma blanks_slash a : blanks a -> ~ In "/"%char a.
Proof. intros B I. unfold blanks in B. rewrite Forall_forall in B. destruct (B _ I) as [E|E]; discriminate E. Qed.
Lemma part_slash a ds n b : blanks a -> number ds n -> blanks b -> ~ In "/"%char (a ++ ds ++ b).
Proof. intros A N B I. apply in_app_or in I as [I|I]; [exact (blanks_slash _ A I)|]. apply in_app_or in I as [I|I]; [exact (number_slash _ _ N I)|exact (blanks_slash _ B I)]. Qed.
Lemma part_int a ds n b : blanks a -> number ds n -> blanks b -> py_int_s (a ++ ds ++ b) = Ok n.
Proof.
  intros A (D & N & V) B. unfold py_int_s. rewrite strip_around by assumption. change (py_int_s ds = Ok n). rewrite <- V. now apply py_int_s_digits.
Qed.
Lemma read_links l t : links l t -> read_link t = Ok l.
Proof.
  induction 1 as [n a ds b A N B|n l a ds b t A N B L IH]; unfold read_link in *.
  - rewrite HeadRun.split_single by (eapply part_slash; eassumption). eapply mapM_app_one; [eapply part_int; eassumption|reflexivity].
  - rewrite MacroProofs.split_on_app by (eapply part_slash; eassumption). eapply mapM_app_one; [eapply part_int; eassumption|exact IH].
Qed.
Lemma show_int_ok z : py_int_s (show_int z) = Ok z /\ ~ In "/"%char (show_int z).
Proof.
  assert (I0 : Forall (fun c => is_space c = false /\ c <> "/"%char) (show_int z)).
  { apply Forall_forall. intros c J. destruct (Z.ltb_spec z 0) as [L|L].
    - unfold show_int in J. destruct (Z.ltb_spec z 0) as [_|L']; [|lia]. destruct J as [<-|J]; [split; [reflexivity|discriminate]|].
      pose proof (NumProofs.all_digits_in _ _ (show_nat_digits (- z)) J) as K. split; [now apply digit_not_space|]. intros ->. discriminate.
    - destruct (show_int_digits z L) as [D _]. pose proof (NumProofs.all_digits_in _ _ D J) as K. split; [now apply digit_not_space|]. intros ->. discriminate. }
  split.
  - unfold py_int_s. rewrite strip_nospace by (eapply Forall_impl; [|exact I0]; now intros c []). destruct (Z.ltb_spec z 0); [now apply py_int_show_neg|now apply py_int_show].
  - intros J. rewrite Forall_forall in I0. now destruct (I0 _ J).
Qed.
Lemma link_roundtrip l : l <> [] -> read_link (write_link l) = Ok l.
Proof.
  induction l as [|z l IH]; [congruence|]. intros _. destruct (show_int_ok z) as [P N]. unfold read_link, write_link in *. destruct l as [|y l].
  - cbn [map slashed]. rewrite HeadRun.split_single by exact N. eapply mapM_app_one; [exact P|reflexivity].
  - specialize (IH ltac:(discriminate)). change (slashed (map show_int (z :: y :: l))) with (show_int z ++ "/"%char :: slashed (map show_int (y :: l))).
    rewrite MacroProofs.split_on_app by exact N. eapply mapM_app_one; [exact P|exact IH].
Qed.
Lemma read_alike i d z i' d' z' se se' p x x' line line' : readable i d -> readable i' d' -> defines i d z x line -> defines i' d' z' x' line' ->
  xs_format se = (i, d) -> xs_zeros se = z -> xs_format se' = (i', d') -> xs_zeros se' = z' -> xs_units se = xs_units se' ->
  (forall c, In c tool_letters -> param c (d_params x) = param c (d_params x')) ->
  exists t t', read_tool se p line = Ok t /\ read_tool se' p line' = Ok t' /\ alike t t'.
Proof.
  intros R R' D D' F Z F' Z' U P. eexists _, _. split; [exact (read_tool_all i d z R se p x line D F Z)|]. split; [exact (read_tool_all i' d' z' R' se' p x' line' D' F' Z')|].
  unfold alike. cbn. rewrite !P by (cbn; tauto). tauto.
Qed.
Lemma written_alike i d se t : usable_format i d -> xs_format se = (i, d) -> writable_tool i d t -> xs_units se = xs_units (t_set t) ->
  exists line t', write_tool se t = Ok line /\ read_tool se (t_plated t) line = Ok t' /\ alike t t'.
Proof.
  intros U F W X. destruct (tool_roundtrip i d se (t_plated t) t U F W) as (line & E & R). eexists _, _. split; [exact E|]. split; [exact R|]. unfold alike. cbn. auto 10.
Qed.
