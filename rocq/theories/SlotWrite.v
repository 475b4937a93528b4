(** Writing drill files that contain slots. *)
From Verif Require Import PyBase QcLib NumModel ExcellonModel ExcellonFile.
Open Scope list_scope.

Lemma write_hits_slot : forall se s n o a b r t hits, In (Slot o a b r) hits -> tool_at s o = Ok t -> t_num t = n ->
  exists e, write_hits se s n hits = Err e.
Proof.
  intros se s n o a b r t hits I E N. induction hits as [|h hits IH]; [destruct I|].
  cbn [write_hits]. destruct (tool_at s (hit_tool h)) as [t'|e] eqn:E'; [|cbn; eauto]. cbn [bind].
  destruct I as [->|I].
  - cbn [hit_tool] in E'. rewrite E in E'. apply ok_inj in E'. subst t'. rewrite N, Z.eqb_refl. eauto.
  - destruct (IH I) as [e IHe]. destruct (t_num t' =? n)%Z; [|eauto]. destruct h as [o' p|]; [|eauto].
    destruct (write_stmt _ _ _) as [l|e']; cbn [bind]; [|eauto]. rewrite IHe. cbn. eauto.
Qed.
Lemma write_jobs_slot : forall se s o a b r t hits tools n l t', In (Slot o a b r) hits -> tool_at s o = Ok t ->
  In (n, l) tools -> tool_at s (Some l) = Ok t' -> t_num t' = t_num t -> exists e, write_jobs se s hits tools = Err e.
Proof.
  intros se s o a b r t hits tools n l t' I E J E' N. induction tools as [|[n' l'] tools IH]; [destruct J|].
  cbn [write_jobs]. destruct (tool_at s (Some l')) as [t1|e] eqn:E1; [|cbn; eauto]. cbn [bind].
  destruct (write_stmt _ _ _) as [x|e]; cbn [bind]; [|eauto]. destruct J as [J|J].
  - injection J as -> ->. rewrite E' in E1. apply ok_inj in E1. subst t1.
    destruct (write_hits_slot se s (t_num t') o a b r t hits I E (eq_sym N)) as [e ->]. cbn. eauto.
  - destruct (write_hits _ _ _ _) as [y|e]; cbn [bind]; [|eauto]. destruct (IH J) as [e ->]. cbn. eauto.
Qed.
Lemma C127_lemma : forall f o a b r t n l t', In (Slot o a b r) (xf_hits f) -> tool_at (xf_store f) o = Ok t ->
  In (n, l) (xf_tools f) -> tool_at (xf_store f) (Some l) = Ok t' -> t_num t' = t_num t -> exists e, write_file f = Err e.
Proof.
  intros f o a b r t n l t' I E J E' N. unfold write_file, write_lines.
  destruct (mapM _ _) as [h|e]; cbn [bind]; [|eauto].
  destruct (write_jobs_slot (xf_set f) _ o a b r t (xf_hits f) (xf_tools f) n l t' I E J E' N) as [e ->]. cbn. eauto.
Qed.
