(** Lemmas about netlists that go on. *)
From Verif Require Import PyBase QcLib NumModel IpcModel IpcSpec IpcProofs NetFileSpec NetFileProofs NetIdleSpec NetIdleProofs NetStaySpec.
Import ListNotations.
Open Scope list_scope.

Lemma line_grows line p p' : parse_line line p = Ok p' -> extends (ip_stmts p) (ip_stmts p').
Proof.
  assert (A : forall s, extends (ip_stmts p) (ip_stmts (add s p))) by (intros s; now exists [s]).
  unfold parse_line. destruct line as [|c l]; [intros [= <-]; exists []; now rewrite app_nil_r|]. cbv zeta.
  destruct (ceq c "C"%char); [intros [= <-]; apply A|].
  destruct (ceq c "P"%char). { destruct (parameter_from_line (c :: l)) as [[n v]|]; cbn [bind]; [|discriminate]. intros [= <-]. now exists [IParameter n v]. }
  destruct (ceq c "9"%char); [intros [= <-]; apply A|].
  match goal with |- context [if ?b then _ else _] => destruct b end. { destruct (record_from_line (c :: l) (ip_set p)); cbn [bind]; [|discriminate]. intros [= <-]. apply A. }
  match goal with |- context [if ?b then _ else _] => destruct b end. { destruct (conductor_from_line (c :: l) (ip_set p)); cbn [bind]; [|discriminate]. intros [= <-]. apply A. }
  match goal with |- context [if ?b then _ else _] => destruct b end. { destruct (adjacency_from_line (c :: l)); cbn [bind]; [|discriminate]. intros [= <-]. apply A. }
  match goal with |- context [if ?b then _ else _] => destruct b end. { destruct (outline_from_line (c :: l) (ip_set p)); cbn [bind]; [|discriminate]. intros [= <-]. apply A. }
  intros [= <-]. exists []. now rewrite app_nil_r.
Qed.
Lemma extends_trans {A} (l m n : list A) : extends l m -> extends m n -> extends l n.
Proof. intros (k & ->) (k' & ->). exists (k ++ k'). now rewrite app_assoc. Qed.
Lemma lines_grow ls : forall old p p', parse_lines old ls p = Ok p' -> extends (ip_stmts p) (ip_stmts p').
Proof.
  induction ls as [|x ls IH]; intros old p p'; cbn [parse_lines]; [apply line_grows|]. destruct old as [|o old]; [apply IH|].
  destruct x as [|c x]; [|destruct (ceq c "0"%char); [apply IH|]]; (destruct (parse_line (o :: old) p) as [q|] eqn:E; cbn [bind]; [|discriminate]; intros H; eapply extends_trans; [eapply line_grows; exact E|eapply IH; exact H]).
Qed.
Lemma lines_join b : no_continuation b -> forall ls old p, parse_lines old (ls ++ b) p = do p' <- parse_lines old ls p; parse_lines [] b p'.
Proof.
  intros N. induction ls as [|x ls IH]; intros old p; cbn [app].
  - destruct old as [|o old]; [reflexivity|]. destruct b as [|[|d l] b]; cbn [parse_lines].
    + destruct (parse_line (o :: old) p); reflexivity.
    + destruct (parse_line (o :: old) p); reflexivity.
    + rewrite (next_head _ _ _ N). destruct (parse_line (o :: old) p); reflexivity.
  - cbn [parse_lines]. destruct old as [|o old]; [apply IH|]. destruct x as [|c x]; [|destruct (ceq c "0"%char); [apply IH|]]; (destruct (parse_line (o :: old) p); cbn [bind]; [apply IH|reflexivity]).
Qed.
Lemma mapM_extends {A B} (f : A -> res B) l m l' m' : extends l m -> mapM f l = Ok l' -> mapM f m = Ok m' -> extends l' m'.
Proof.
  intros (k & ->). revert l' m'. induction l as [|x l IH]; intros l' m'; cbn [app mapM]; [intros [= <-] _; now exists m'|].
  destruct (f x); cbn [bind]; [|discriminate]. destruct (mapM f l) as [u|] eqn:E1; cbn [bind]; [|discriminate]. destruct (mapM f (l ++ k)) as [v|] eqn:E2; cbn [bind]; [|discriminate].
  intros [= <-] [= <-]. destruct (IH u v eq_refl eq_refl) as (w & ->). now exists w.
Qed.
Lemma netlist_grows a b n n' : Forall one_line (a ++ b) -> no_continuation b -> parse_raw (file_of a) = Ok n -> parse_raw (file_of (a ++ b)) = Ok n' ->
  extends (n_stmts n) (n_stmts n') /\ extends (n_prims n) (n_prims n').
Proof.
  intros F N. unfold parse_raw. rewrite (splitlines_file _ F). apply Forall_app in F as [F _]. rewrite (splitlines_file _ F), (lines_join b N).
  destruct (parse_lines [] a init_parser) as [p|]; cbn [bind]; [|discriminate]. destruct (parse_lines [] b p) as [q|] eqn:E; cbn [bind]; [|discriminate]. apply lines_grow in E.
  unfold netlist_of. destruct (mapM prim_of (test_records (ip_stmts p))) as [u|] eqn:E1; cbn [bind]; [|discriminate]. destruct (mapM prim_of (test_records (ip_stmts q))) as [v|] eqn:E2; cbn [bind]; [|discriminate].
  intros [= <-] [= <-]. split; [exact E|]. cbn. eapply mapM_extends; [|exact E1|exact E2]. destruct E as (k & ->). exists (test_records k). unfold test_records. apply flat_map_app.
Qed.
Lemma netlist_error a b e : Forall one_line (a ++ b) -> no_continuation b -> parse_raw (file_of a) = Err e -> exists e', parse_raw (file_of (a ++ b)) = Err e'.
Proof.
  intros F N. unfold parse_raw. rewrite (splitlines_file _ F). apply Forall_app in F as [F _]. rewrite (splitlines_file _ F), (lines_join b N).
  destruct (parse_lines [] a init_parser) as [p|e0]; cbn [bind]; [|intros _; now exists e0]. destruct (parse_lines [] b p) as [q|e0] eqn:E; cbn [bind]; [|intros _; now exists e0]. apply lines_grow in E as (k & E).
  unfold netlist_of. rewrite E. unfold test_records. rewrite flat_map_app. generalize (flat_map (fun s => match s with ITest r => [r] | _ => [] end) k) as w. generalize (flat_map (fun s => match s with ITest r => [r] | _ => [] end) (ip_stmts p)) as l.
  intros l w. assert (M : mapM prim_of l = Err e -> mapM prim_of (l ++ w) = Err e).
  { revert e. induction l as [|x l IH]; intros e'; [discriminate|]. cbn [app mapM]. destruct (prim_of x); cbn [bind]; [|auto]. destruct (mapM prim_of l); cbn [bind]; [discriminate|]. intros [= ->]. now rewrite (IH e' eq_refl). }
  destruct (mapM prim_of l) as [u|e0]; cbn [bind]; [discriminate|]. intros [= ->]. rewrite (M eq_refl). now exists e.
Qed.
Lemma to_set_in x l : In x (to_set l) <-> In x l.
Proof.
  induction l as [|y l IH]; [reflexivity|]. cbn [to_set]. destruct (mem y l) eqn:M; [|cbn; now rewrite IH]. rewrite IH. split; [now right|]. intros [->|I]; [|exact I].
  unfold mem in M. apply existsb_exists in M as (z & I & E). destruct (teq_spec x z) as [->|]; [exact I|discriminate].
Qed.
Lemma lists_grow n n' : extends (n_stmts n) (n_stmts n') -> extends (n_prims n) (n_prims n') ->
  (forall l, extends (render l n) (render l n')) /\ extends (vias (n_stmts n)) (vias (n_stmts n')) /\ forall c, In c (components (n_stmts n)) -> In c (components (n_stmts n')).
Proof.
  intros (k & E) (j & P). split; [|split].
  - intros l. unfold render. rewrite P, filter_app. eexists. reflexivity.
  - unfold vias, test_records. rewrite E, flat_map_app, map_app, filter_app. eexists. reflexivity.
  - intros c. unfold components. rewrite !to_set_in. unfold test_records. rewrite E, flat_map_app, map_app, filter_app. intros I. apply in_or_app. now left.
Qed.
