(** Properties of command splitting (C17, C18, C62). *)
From Verif Require Import PyBase SplitModel.

(** The line-break characters. *)
Definition line_break (c : ascii) : Prop := c = nl \/ c = cr.
(** Text without its line breaks. *)
Definition without_breaks (s : text) : text := filter (fun c => negb (ceq c nl || ceq c cr)) s.

Lemma split_content : forall data cur hdr, let (ys, t) := split_loop cur hdr data in
  List.concat ys ++ t = cur ++ without_breaks data.
Proof.
  induction data as [|v r IH]; intros cur hdr; cbn [split_loop].
  - cbn. now rewrite app_nil_r.
  - unfold without_breaks in *. cbn [filter].
    destruct (ceq v "%"%char && match cur with [] => true | _ => false end) eqn:P.
    { apply andb_prop in P as [P _]. apply ceq_true in P. subst v. cbn [ceq orb negb].
      change (ceq "%" nl || ceq "%" cr) with false. cbn [negb].
      specialize (IH (cur ++ ["%"%char]) true). destruct (split_loop (cur ++ ["%"%char]) true r) as [ys t].
      rewrite IH, <- app_assoc. reflexivity. }
    unfold is_nl. rewrite orb_comm. destruct (ceq v nl || ceq v cr) eqn:N.
    { cbn [negb]. specialize (IH [] hdr). destruct (split_loop [] hdr r) as [ys t].
      destruct cur; cbn [List.concat app] in *; [exact IH|]. rewrite <- app_assoc, IH. reflexivity. }
    cbn [negb]. destruct (negb hdr && ceq v "*"%char).
    { specialize (IH [] hdr). destruct (split_loop [] hdr r) as [ys t]. cbn [List.concat app] in *.
      rewrite <- !app_assoc. cbn [app]. now rewrite IH. }
    destruct (hdr && ceq v "%"%char).
    { specialize (IH [] false). destruct (split_loop [] false r) as [ys t]. cbn [List.concat app] in *.
      rewrite <- !app_assoc. cbn [app]. now rewrite IH. }
    specialize (IH (cur ++ [v]) hdr). destruct (split_loop (cur ++ [v]) hdr r) as [ys t].
    rewrite IH, <- app_assoc. reflexivity.
Qed.

Definition no_break (s : text) : Prop := forall c, In c s -> ~ line_break c.

Lemma no_break_snoc s c : no_break s -> is_nl c = false -> no_break (s ++ [c]).
Proof.
  intros H N x Hx [E|E]; subst; apply in_app_or in Hx as [Hx|[Hx|[]]];
    try (eapply H; [exact Hx|unfold line_break; auto]; fail); subst; discriminate.
Qed.

Lemma split_shape : forall data cur hdr, no_break cur ->
  Forall (fun y => y <> [] /\ no_break y) (fst (split_loop cur hdr data)) /\ no_break (snd (split_loop cur hdr data)).
Proof.
  induction data as [|v r IH]; intros cur hdr Hc; cbn [split_loop].
  - split; [constructor|exact Hc].
  - assert (Nil : no_break []) by (intros c []).
    assert (Ne : cur ++ [v] <> []) by (destruct cur; discriminate).
    destruct (ceq v "%"%char && match cur with [] => true | _ => false end) eqn:P.
    { apply IH. apply no_break_snoc; [auto|]. apply andb_prop in P as [P _]. apply ceq_true in P. now subst. }
    destruct (is_nl v) eqn:N.
    { specialize (IH [] hdr Nil). destruct (split_loop [] hdr r) as [ys t]. cbn [fst snd] in *.
      destruct IH as [I1 I2]. split; [|exact I2]. destruct cur; [exact I1|]. constructor; [split; [discriminate|auto]|exact I1]. }
    destruct (negb hdr && ceq v "*"%char).
    { specialize (IH [] hdr Nil). destruct (split_loop [] hdr r) as [ys t]. cbn [fst snd] in *.
      destruct IH as [I1 I2]. split; [|exact I2]. constructor; [|exact I1]. split; [auto|]. now apply no_break_snoc. }
    destruct (hdr && ceq v "%"%char).
    { specialize (IH [] false Nil). destruct (split_loop [] false r) as [ys t]. cbn [fst snd] in *.
      destruct IH as [I1 I2]. split; [|exact I2]. constructor; [|exact I1]. split; [auto|]. now apply no_break_snoc. }
    apply IH. now apply no_break_snoc.
Qed.

(** ** C17 *)
Theorem C17_split_loses_only_breaks : forall data,
  List.concat (split_commands data) ++ split_tail data = without_breaks data /\
  Forall (fun y => y <> [] /\ no_break y) (split_commands data).
Proof.
  intros data. split.
  - pose proof (split_content data [] true) as H. unfold split_commands, split_tail.
    destruct (split_loop [] true data). exact H.
  - now apply split_shape.
Qed.
Print Assumptions C17_split_loses_only_breaks.

Example C17_ex : split_commands (T "%FSLAX24Y24*%" ++ [nl] ++ T "X1Y2D01*D10*" ++ [cr; nl] ++ T "M02*" ++ [nl])
  = [T "%FSLAX24Y24*%"; T "X1Y2D01*"; T "D10*"; T "M02*"].
Proof. reflexivity. Qed.

(** ** C18 *)

(** The same text with another line-ending convention. *)
Definition with_ending (e : text) (s : text) : text := flat_map (fun c => if ceq c nl then e else [c]) s.

Lemma split_crlf : forall data cur hdr, ~ In cr data ->
  split_loop cur hdr (with_ending [cr; nl] data) = split_loop cur hdr data.
Proof.
  induction data as [|v r IH]; intros cur hdr H; [reflexivity|].
  unfold with_ending in *. cbn [flat_map]. destruct (ceq_spec v nl) as [->|N].
  - cbn [app split_loop]. change (ceq cr "%" && _) with false. change (ceq nl "%" && _) with false.
    change (is_nl cr) with true. change (is_nl nl) with true. cbv iota.
    rewrite IH by (intros X; apply H; now right). destruct (split_loop [] hdr r); reflexivity.
  - cbn [app split_loop]. rewrite !IH by (intros X; apply H; now right). reflexivity.
Qed.
Lemma split_cr : forall data cur hdr, ~ In cr data ->
  split_loop cur hdr (with_ending [cr] data) = split_loop cur hdr data.
Proof.
  induction data as [|v r IH]; intros cur hdr H; [reflexivity|].
  unfold with_ending in *. cbn [flat_map]. destruct (ceq_spec v nl) as [->|N].
  - cbn [app split_loop]. change (ceq cr "%" && _) with false. change (ceq nl "%" && _) with false.
    change (is_nl cr) with true. change (is_nl nl) with true. cbv iota.
    rewrite IH by (intros X; apply H; now right). reflexivity.
  - cbn [app split_loop]. rewrite !IH by (intros X; apply H; now right). reflexivity.
Qed.

Theorem C18_line_endings : forall data, ~ In cr data ->
  split_commands (with_ending [cr; nl] data) = split_commands data /\
  split_commands (with_ending [cr] data) = split_commands data.
Proof. intros data H. unfold split_commands. now rewrite split_crlf, split_cr by exact H. Qed.
Print Assumptions C18_line_endings.

Example C18_ex : ~ In cr (T "G04 a*" ++ [nl; nl] ++ T "M02*") /\
  with_ending [cr; nl] (T "G04 a*" ++ [nl; nl] ++ T "M02*") = T "G04 a*" ++ [cr; nl; cr; nl] ++ T "M02*".
Proof. split; [intros H; repeat (destruct H as [H|H]; [discriminate|]); destruct H|reflexivity]. Qed.

(** ** C62 *)

(** False: before the first parameter block ends, '*' does not end a command, so a headerless text
    whose commands are all terminated by '*' is dropped entirely. *)
Theorem C62_terminated_data_kept_refuted :
  split_commands (T "X0Y0D02*X1Y1D01*M02*") = [] /\
  split_tail (T "X0Y0D02*X1Y1D01*M02*") = T "X0Y0D02*X1Y1D01*M02*".
Proof. split; reflexivity. Qed.
Print Assumptions C62_terminated_data_kept_refuted.

Lemma split_tail_break : forall data cur hdr b, line_break b -> snd (split_loop cur hdr (data ++ [b])) = [].
Proof.
  intros data cur hdr b B. revert cur hdr. induction data as [|v r IH]; intros cur hdr.
  - cbn [app split_loop]. assert (ceq b "%"%char = false) as -> by (destruct B; subst; reflexivity).
    assert (is_nl b = true) as -> by (destruct B; subst; reflexivity). reflexivity.
  - cbn [app split_loop]. destruct (ceq v "%"%char && _); [apply IH|].
    destruct (is_nl v); [specialize (IH [] hdr); destruct (split_loop [] hdr (r ++ [b])); exact IH|].
    destruct (negb hdr && ceq v "*"%char); [specialize (IH [] hdr); destruct (split_loop [] hdr (r ++ [b])); exact IH|].
    destruct (hdr && ceq v "%"%char); [specialize (IH [] false); destruct (split_loop [] false (r ++ [b])); exact IH|].
    apply IH.
Qed.

(** A final line break is enough for nothing to be lost. *)
Theorem C62_terminated_data_kept_partial : forall data b, line_break b ->
  List.concat (split_commands (data ++ [b])) = without_breaks data.
Proof.
  intros data b B. destruct (C17_split_loses_only_breaks (data ++ [b])) as [H _].
  unfold split_tail in H. rewrite split_tail_break, app_nil_r in H by exact B. rewrite H.
  unfold without_breaks. rewrite filter_app. cbn [filter].
  destruct B; subst b; apply app_nil_r.
Qed.
Print Assumptions C62_terminated_data_kept_partial.
