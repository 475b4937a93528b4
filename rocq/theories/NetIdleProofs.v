(** Lemmas about lines of netlists that are not records. *)
From Coq Require Import Lia.
From Verif Require Import PyBase QcLib NumModel IpcModel IpcSpec IpcProofs NetFileSpec NetFileProofs NetIdleSpec.
Import ListNotations.
Open Scope list_scope.

Definition alike (p p' : parser) : Prop := ip_set p' = ip_set p /\ ip_names p' = ip_names p /\ filter is_record (ip_stmts p') = filter is_record (ip_stmts p).
Definition both (r r' : res parser) : Prop := match r with Ok p => exists p', r' = Ok p' /\ alike p p' | Err e => r' = Err e end.
Lemma alike_refl p : alike p p.
Proof. repeat split. Qed.
Lemma alike_add s p p' : alike p p' -> alike (add s p) (add s p').
Proof. intros (A & B & C). unfold alike, add. cbn. rewrite !filter_app, C. auto. Qed.
Lemma both_bind r r' f f' : both r r' -> (forall p p', alike p p' -> both (f p) (f' p')) -> both (do p <- r; f p) (do p <- r'; f' p).
Proof. intros B H. destruct r as [p|e]; cbn [both] in B; [destruct B as (p' & -> & A); now apply H|subst; reflexivity]. Qed.
Lemma line_both line p p' : alike p p' -> both (parse_line line p) (parse_line line p').
Proof.
  intros A. assert (AA := A). destruct A as (A1 & A2 & A3). unfold parse_line. destruct line as [|c l]; [now exists p'|]. cbv zeta.
  destruct (ceq c "C"%char); [eexists; split; [reflexivity|now apply alike_add]|].
  destruct (ceq c "P"%char).
  { destruct (parameter_from_line (c :: l)) as [[n v]|e]; cbn [bind]; [|reflexivity]. rewrite A1, A2. eexists. split; [reflexivity|]. unfold alike. cbn. rewrite !filter_app, A3. auto. }
  destruct (ceq c "9"%char); [eexists; split; [reflexivity|now apply alike_add]|].
  match goal with |- both (if ?b then _ else _) _ => destruct b end.
  { rewrite A1, A2. destruct (record_from_line (c :: l) (ip_set p)); cbn [bind]; [|reflexivity]. eexists. split; [reflexivity|now apply alike_add]. }
  match goal with |- both (if ?b then _ else _) _ => destruct b end.
  { rewrite A1. destruct (conductor_from_line (c :: l) (ip_set p)); cbn [bind]; [|reflexivity]. eexists. split; [reflexivity|now apply alike_add]. }
  match goal with |- both (if ?b then _ else _) _ => destruct b end.
  { destruct (adjacency_from_line (c :: l)); cbn [bind]; [|reflexivity]. eexists. split; [reflexivity|now apply alike_add]. }
  match goal with |- both (if ?b then _ else _) _ => destruct b end.
  { rewrite A1. destruct (outline_from_line (c :: l) (ip_set p)); cbn [bind]; [|reflexivity]. eexists. split; [reflexivity|now apply alike_add]. }
  now exists p'.
Qed.
Lemma lines_both ls : forall old p p', alike p p' -> both (parse_lines old ls p) (parse_lines old ls p').
Proof.
  induction ls as [|x ls IH]; intros old p p' A; cbn [parse_lines]; [now apply line_both|]. destruct old as [|o old]; [now apply IH|].
  destruct x as [|c x]; [|destruct (ceq c "0"%char); [now apply IH|]]; (apply both_bind; [now apply line_both|intros; now apply IH]).
Qed.
Lemma starts3 a b c t : firstn 3 t = [a; b; c] -> begins [a; b; c] t.
Proof. intros E. exists (skipn 3 t). rewrite <- E at 1. symmetry. apply firstn_skipn. Qed.
Lemma aside_line t p : aside t -> exists p', parse_line t p = Ok p' /\ alike p p'.
Proof.
  intros [|r|n ws Wn N1 N2 Wl|t0 K].
  - exists p. split; [reflexivity|apply alike_refl].
  - eexists. split; [reflexivity|]. unfold alike, add. cbn. rewrite filter_app. cbn. now rewrite app_nil_r.
  - rewrite parameter_step by assumption. eexists. split; [reflexivity|].
    destruct (teq_spec n (T "UNITS")) as [->|_]; [now destruct N1|]. assert (Nn : is_nname n = false) by (destruct (is_nname n) eqn:E; [exfalso; apply N2; now apply nname_variable|reflexivity]). rewrite Nn.
    unfold alike. cbn [ip_set ip_names ip_stmts]. rewrite filter_app. cbn [filter is_record]. now rewrite app_nil_r.
  - exists p. split; [|apply alike_refl]. unfold parse_line. destruct t0 as [|c u]; [reflexivity|]. cbv zeta.
    assert (H1 : forall x, In [x] [T "C"; T "P"; T "9"] -> ceq c x = false).
    { intros x I. destruct (ceq_spec c x) as [->|]; [|reflexivity]. exfalso. apply (K [x]); [|now exists u]. cbn in I |- *. tauto. }
    assert (H3 : forall w, In w [T "317"; T "327"; T "367"; T "378"; T "379"; T "389"] -> teq (firstn 3 (c :: u)) w = false).
    { intros w I. destruct (teq_spec (firstn 3 (c :: u)) w) as [E|]; [|reflexivity]. exfalso. apply (K w); [cbn in I |- *; tauto|]. exists (skipn 3 (c :: u)). rewrite <- E. symmetry. apply firstn_skipn. }
    rewrite !H1 by (cbn; tauto). rewrite !H3 by (cbn; tauto). reflexivity.
Qed.
Lemma aside_head t c r : aside t -> t = c :: r -> ceq c "0"%char = false.
Proof.
  intros A E. destruct A as [|r'|n ws _ _ _ _|t0 K].
  - discriminate.
  - injection E as <- _. reflexivity.
  - injection E as <- _. reflexivity.
  - subst. destruct (ceq_spec c "0"%char) as [->|]; [|reflexivity]. exfalso. apply (K (T "0")); [cbn; tauto|now exists r].
Qed.
Lemma next_head c r b : no_continuation ((c :: r) :: b) -> ceq c "0"%char = false.
Proof. intros N. destruct (ceq_spec c "0"%char) as [->|]; [|reflexivity]. destruct N. now exists r. Qed.
Lemma aside_first t b p : aside t -> no_continuation b -> both (parse_lines [] b p) (parse_lines t b p).
Proof.
  intros A N. destruct (aside_line t p A) as (p' & E & S). destruct t as [|c t]; [apply lines_both, alike_refl|]. destruct b as [|l b]; cbn [parse_lines].
  - exists p'. auto.
  - destruct l as [|d l]; [|rewrite (next_head _ _ _ N)]; rewrite E; cbn [bind]; now apply lines_both.
Qed.
Lemma aside_lines t b a : aside t -> no_continuation b -> forall old p, both (parse_lines old (a ++ b) p) (parse_lines old (a ++ t :: b) p).
Proof.
  intros A N. induction a as [|x a IH]; intros old p; cbn [app].
  - destruct old as [|o old]; [cbn [parse_lines]; now apply aside_first|].
    assert (L : parse_lines (o :: old) (t :: b) p = do p1 <- parse_line (o :: old) p; parse_lines t b p1).
    { cbn [parse_lines]. destruct t as [|c t]; [reflexivity|]. now rewrite (aside_head _ c t A eq_refl). }
    assert (R : parse_lines (o :: old) b p = do p1 <- parse_line (o :: old) p; parse_lines [] b p1).
    { destruct b as [|[|d l] b]; cbn [parse_lines].
      - destruct (parse_line (o :: old) p); reflexivity.
      - reflexivity.
      - now rewrite (next_head _ _ _ N). }
    rewrite L, R. destruct (parse_line (o :: old) p); cbn [bind]; [now apply aside_first|reflexivity].
  - cbn [parse_lines]. destruct old as [|o old]; [apply IH|]. destruct x as [|c x]; [|destruct (ceq c "0"%char); [apply IH|]]; (destruct (parse_line (o :: old) p); cbn [bind]; [apply IH|reflexivity]).
Qed.
Lemma records_of l : test_records l = test_records (filter is_record l).
Proof. unfold test_records. induction l as [|s l IH]; [reflexivity|]. destruct s; cbn; now rewrite IH. Qed.
Lemma adjacencies_of l : adjacency_records l = adjacency_records (filter is_record l).
Proof. unfold adjacency_records. induction l as [|s l IH]; [reflexivity|]. destruct s; cbn; now rewrite IH. Qed.
Lemma aside_file a t b : Forall one_line (a ++ t :: b) -> aside t -> no_continuation b ->
  match parse_raw (file_of (a ++ b)) with
  | Ok n => exists n', parse_raw (file_of (a ++ t :: b)) = Ok n' /\ same_records n n'
  | Err e => parse_raw (file_of (a ++ t :: b)) = Err e
  end.
Proof.
  intros F A N. unfold parse_raw. rewrite (splitlines_file _ F). apply Forall_app in F as [F1 F2]. inversion F2; subst. rewrite splitlines_file by (apply Forall_app; auto).
  pose proof (aside_lines t b a A N [] init_parser) as B. destruct (parse_lines [] (a ++ b) init_parser) as [p|e]; cbn [both] in B; [|rewrite B; reflexivity].
  destruct B as (p' & -> & (A1 & A2 & A3)). cbn [bind]. unfold netlist_of. rewrite (records_of (ip_stmts p)), (records_of (ip_stmts p')), A3.
  destruct (mapM prim_of (test_records (filter is_record (ip_stmts p)))) as [prims|e]; cbn [bind]; [|reflexivity]. eexists. split; [reflexivity|]. unfold same_records. cbn. auto.
Qed.
Lemma same_lists n n' : same_records n n' ->
  nets (n_stmts n') = nets (n_stmts n) /\ components (n_stmts n') = components (n_stmts n) /\ vias (n_stmts n') = vias (n_stmts n) /\ forall l, render l n' = render l n.
Proof.
  intros (_ & P & E). unfold nets, components, vias, render. rewrite (records_of (n_stmts n')), (records_of (n_stmts n)), (adjacencies_of (n_stmts n')), (adjacencies_of (n_stmts n)), E, P. auto.
Qed.
