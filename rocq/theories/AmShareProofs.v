(** Proofs about shared macro statements. *)
From Verif Require Import PyBase QcLib NumModel NumSpec GerberText GerberTextSpec GerberTextProofs MacroModel GerberEval AmModel AmShareSpec.
Open Scope list_scope.

(** How many macro statements were before. *)
Fixpoint stmts_in (past : list event) : nat :=
  match past with [] => O | EvMacro _ _ :: r => S (stmts_in r) | _ :: r => stmts_in r end.
(** Where in the store a statement is, and which one is there. *)
Fixpoint place (k : nat) (past : list event) : option nat :=
  match past with
  | [] => None
  | EvMacro _ _ :: r => if Nat.eqb (List.length r) k then Some (stmts_in r) else place k r
  | _ :: r => place k r
  end.
Lemma place_bound k past l : place k past = Some l -> (l < stmts_in past)%nat /\ (k < List.length past)%nat.
Proof.
  induction past as [|e r IH]; cbn [place]; [discriminate|]. destruct e; try (intro H; destruct (IH H) as [A B]; cbn [stmts_in List.length]; split; lia).
  destruct (Nat.eqb_spec (List.length r) k) as [<-|N].
  - intros [= <-]. cbn [stmts_in List.length]. lia.
  - intro H. destruct (IH H). cbn [stmts_in List.length]. lia.
Qed.
Lemma place_inj past : forall k k' l, place k past = Some l -> place k' past = Some l -> k = k'.
Proof.
  induction past as [|e r IH]; intros k k' l A B; cbn [place] in *; [discriminate|]. destruct e; try (eapply IH; eassumption).
  destruct (Nat.eqb_spec (List.length r) k) as [E|N], (Nat.eqb_spec (List.length r) k') as [E'|N']; try congruence; try (eapply IH; eassumption).
  - injection A as <-. apply place_bound in B. lia.
  - injection B as <-. apply place_bound in A. lia.
Qed.
Definition opt_place (past : list event) (a : option (nat * list amprim)) (b : option (nat * list amprim)) : Prop :=
  match a, b with
  | Some (k, ps), Some (l, ps') => place k past = Some l /\ ps = ps'
  | None, None => True
  | _, _ => False
  end.
Record sinv (past : list event) (s : shst) : Prop := {
  v_count : List.length (sh_stmts s) = stmts_in past;
  v_sel : sh_sel s = selected past;
  v_macros : forall n, match macro_named n past, tget n (sh_macros s) with
    | Some (k, i), Some l => place k past = Some l /\ exists a, nth_error (sh_stmts s) l = Some a /\ as_instrs a = i
    | None, None => True
    | _, _ => False
    end;
  v_prims : forall k l, place k past = Some l -> exists a, nth_error (sh_stmts s) l = Some a /\ as_prims a = last_made k past;
  v_aps : forall d, match defined d past, zget d (sh_aps s) with
    | Some a, Some b => opt_place past a b
    | None, None => True
    | _, _ => False
    end }.
Lemma sinv_init : sinv [] sh_init.
Proof. split; cbn; auto; intros; discriminate. Qed.
Lemma set_prims_length l : forall k ps, List.length (set_prims l k ps) = List.length l.
Proof. induction l as [|a l IH]; intros [|k] ps; cbn; auto. Qed.
Lemma set_prims_same l : forall k ps a, nth_error l k = Some a -> nth_error (set_prims l k ps) k = Some (mkAmStmt (as_instrs a) ps).
Proof. induction l as [|b l IH]; intros [|k] ps a; cbn; try discriminate; [intros [= ->]; reflexivity|apply IH]. Qed.
Lemma set_prims_other l : forall k k' ps, k <> k' -> nth_error (set_prims l k ps) k' = nth_error l k'.
Proof. induction l as [|b l IH]; intros [|k] [|k'] ps N; cbn; auto; try congruence. Qed.
Lemma place_more e past k l : place k past = Some l -> place k (e :: past) = Some l.
Proof.
  intro H. destruct e; try exact H. cbn [place]. apply place_bound in H as B. destruct (Nat.eqb_spec (List.length past) k); [lia|exact H].
Qed.
Lemma opt_place_more e past a b : opt_place past a b -> opt_place (e :: past) a b.
Proof. destruct a as [[k ps]|], b as [[l ps']|]; cbn [opt_place]; auto. intros [A B]. split; [now apply place_more|exact B]. Qed.
Lemma macro_named_bound n past k i : macro_named n past = Some (k, i) -> (k < List.length past)%nat.
Proof.
  induction past as [|e r IH]; cbn [macro_named]; [discriminate|]. destruct e; try (intro H; apply IH in H; cbn; lia).
  destruct (teq name n); [intros [= <- _]; cbn; lia|intro H; apply IH in H; cbn; lia].
Qed.
Lemma last_made_fresh past : forall k, (List.length past <= k)%nat -> last_made k past = [].
Proof.
  induction past as [|e r IH]; intros k H; [reflexivity|]. cbn in H. destruct e; cbn [last_made]; try (apply IH; lia).
  unfold made. destruct (macro_named name r) as [[k' i]|] eqn:E; [|apply IH; lia]. apply macro_named_bound in E. destruct (am_build i mods); [|apply IH; lia].
  destruct (Nat.eqb_spec k' k); [lia|apply IH; lia].
Qed.
Ltac keep := match goal with |- context [match ?a with _ => _ end] => destruct a end.
Lemma step_sinv past s e s' : sinv past s -> sh_step s e = Ok s' ->
  sinv (e :: past) s' /\ sh_flashes s' = sh_flashes s ++ flashes_after past [e].
Proof.
  intros [V1 V2 V3 V4 V5] H. destruct e as [n i|d n m|d|d|]; cbn [sh_step] in H.
  - apply ok_inj in H as <-. split; [|cbn; now rewrite app_nil_r]. split; cbn [sh_stmts sh_sel sh_macros sh_aps].
    + rewrite app_length. cbn. lia.
    + exact V2.
    + intro n'. cbn [macro_named tget]. destruct (teq n n').
      * cbn [place]. rewrite Nat.eqb_refl, V1. split; [reflexivity|]. exists (mkAmStmt i []). split; [|reflexivity]. rewrite nth_error_app2 by lia. now replace (stmts_in past - List.length (sh_stmts s))%nat with O by lia.
      * specialize (V3 n'). destruct (macro_named n' past) as [[k j]|], (tget n' (sh_macros s)) as [l|]; auto. destruct V3 as (P & a & A & B). split; [now apply place_more|].
        exists a. split; [|exact B]. rewrite nth_error_app1; [exact A|]. apply place_bound in P. lia.
    + intros k l P. cbn [place] in P. cbn [last_made]. destruct (Nat.eqb_spec (List.length past) k) as [<-|N].
      * injection P as <-. exists (mkAmStmt i []). split; [rewrite nth_error_app2 by lia; now replace (stmts_in past - List.length (sh_stmts s))%nat with O by lia|].
        cbn. symmetry. now apply last_made_fresh.
      * destruct (V4 k l P) as (a & A & B). exists a. split; [|exact B]. rewrite nth_error_app1; [exact A|]. apply place_bound in P. lia.
    + intro d. specialize (V5 d). cbn [defined]. destruct (defined d past), (zget d (sh_aps s)); auto. now apply opt_place_more.
  - pose proof (V3 n) as V. destruct (tget n (sh_macros s)) as [l|] eqn:ET; [|discriminate]. destruct (macro_named n past) as [[k i]|] eqn:EM; [|contradiction].
    destruct V as (P & a & A & B). unfold index in H. rewrite A in H. cbn [bind] in H. rewrite B in H. destruct (am_build i m) as [ps|] eqn:EB; [|discriminate]. cbn [bind] in H.
    apply ok_inj in H as <-. split; [|cbn; now rewrite app_nil_r]. assert (MD : made n m past = Some (k, ps)) by (unfold made; now rewrite EM, EB).
    split; cbn [sh_stmts sh_sel sh_macros sh_aps].
    + now rewrite set_prims_length.
    + exact V2.
    + intro n'. specialize (V3 n'). cbn [macro_named place]. destruct (macro_named n' past) as [[k' i']|], (tget n' (sh_macros s)) as [l'|]; auto. destruct V3 as (P' & a' & A' & B'). split; [exact P'|].
      destruct (Nat.eq_dec l l') as [<-|N].
      * exists (mkAmStmt (as_instrs a) ps). split; [now apply set_prims_same|]. cbn. congruence.
      * exists a'. split; [rewrite set_prims_other by exact N; exact A'|exact B'].
    + intros k' l' P'. cbn [place] in P'. cbn [last_made]. rewrite MD. destruct (Nat.eqb_spec k k') as [<-|N].
      * rewrite P in P'. injection P' as <-. exists (mkAmStmt (as_instrs a) ps). split; [now apply set_prims_same|reflexivity].
      * destruct (V4 k' l' P') as (a' & A' & B'). exists a'. split; [|exact B']. rewrite set_prims_other; [exact A'|]. intros ->. apply N. eapply place_inj; eassumption.
    + intro d'. specialize (V5 d'). cbn [defined zget]. destruct (d =? d')%Z; [rewrite MD; cbn; auto|]. destruct (defined d' past), (zget d' (sh_aps s)); auto.
  - apply ok_inj in H as <-. split; [|cbn; now rewrite app_nil_r]. split; cbn [sh_stmts sh_sel sh_macros sh_aps]; auto.
    intro d'. specialize (V5 d'). cbn [defined zget]. destruct (d =? d')%Z; [exact I|]. destruct (defined d' past), (zget d' (sh_aps s)); auto.
  - apply ok_inj in H as <-. split; [|cbn; now rewrite app_nil_r]. split; cbn [sh_stmts sh_sel sh_macros sh_aps]; auto.
  - cbn [flashes_after]. rewrite app_nil_r. pose proof (V5 (sh_sel s)) as V. rewrite <- V2. destruct (zget (sh_sel s) (sh_aps s)) as [[[l ps]|]|]; [| |discriminate].
    + destruct (defined (sh_sel s) past) as [[[k ps']|]|]; try contradiction. destruct V as [P ->]. destruct (V4 k l P) as (a & A & B). unfold index in H. rewrite A in H. cbn [bind] in H.
      apply ok_inj in H as <-. cbn [sh_flashes]. rewrite B. split; [|reflexivity]. split; cbn [sh_stmts sh_sel sh_macros sh_aps]; auto.
    + apply ok_inj in H as <-. destruct (defined (sh_sel s) past) as [[[k ps']|]|]; try contradiction. cbn [sh_flashes]. split; [|reflexivity]. split; cbn [sh_stmts sh_sel sh_macros sh_aps]; auto.
Qed.
Lemma flashes_cons past e r : flashes_after past (e :: r) = flashes_after past [e] ++ flashes_after (e :: past) r.
Proof. destruct e; try reflexivity. cbn [flashes_after]. now rewrite app_nil_r. Qed.
Lemma run_sinv l : forall past s s', sinv past s -> sh_run s l = Ok s' -> sh_flashes s' = sh_flashes s ++ flashes_after past l.
Proof.
  induction l as [|e r IH]; intros past s s' V H; cbn [sh_run] in H.
  - apply ok_inj in H as <-. cbn. now rewrite app_nil_r.
  - destruct (sh_step s e) as [s1|] eqn:E; [|discriminate]. cbn [bind] in H. destruct (step_sinv _ _ _ _ V E) as [V1 F1].
    rewrite (IH _ _ _ V1 H), F1, (flashes_cons past e r). now rewrite app_assoc.
Qed.
Lemma shared_lemma l s : sh_run sh_init l = Ok s -> sh_flashes s = flashes_after [] l.
Proof. intro H. now rewrite (run_sinv l [] _ _ sinv_init H). Qed.
(** When every statement is used once. *)
Lemma last_made_used k past : ~ In k (uses past) -> last_made k past = [].
Proof.
  induction past as [|e r IH]; intro N; [reflexivity|]. destruct e; cbn [last_made uses] in *; try (apply IH; exact N).
  unfold made. destruct (macro_named name r) as [[k' i]|]; [|now apply IH]. cbn in N. destruct (am_build i mods); [|apply IH; tauto]. destruct (Nat.eqb_spec k' k); [tauto|apply IH; tauto].
Qed.
Lemma defined_in k ps d past : defined d past = Some (Some (k, ps)) -> In k (uses past) /\ (NoDup (uses past) -> last_made k past = ps).
Proof.
  induction past as [|e r IH]; cbn [defined uses last_made]; [discriminate|]. destruct e as [n i|d' n m|d'|d'|]; try exact IH.
  - unfold made. destruct (macro_named n r) as [[k' i]|] eqn:EM.
    + destruct (d' =? d)%Z.
      * destruct (am_build i m) as [ps'|]; [|discriminate]. intros [= -> ->]. split; [now left|]. intros _. now rewrite Nat.eqb_refl.
      * intro H. destruct (IH H) as [A B]. split; [now right|]. intro N. inversion N; subst. destruct (am_build i m); [|now apply B]. destruct (Nat.eqb_spec k' k); [subst; contradiction|now apply B].
    + destruct (d' =? d)%Z; [discriminate|exact IH].
  - destruct (d' =? d)%Z; [discriminate|exact IH].
Qed.
Lemma uses_app a b : exists c, uses (a ++ b) = c ++ uses b.
Proof.
  induction a as [|e a [c IH]]; [now exists []|]. cbn [app]. destruct e; cbn [uses]; try (exists c; exact IH). destruct (macro_named name (a ++ b)) as [[k i]|]; [exists (k :: c); now rewrite IH|exists c; exact IH].
Qed.
Lemma once_after l : forall past, NoDup (uses (rev l ++ past)) -> Forall (fun f => forall a b, f = Some (a, b) -> b = a) (flashes_after past l).
Proof.
  induction l as [|e r IH]; intros past N; [constructor|]. rewrite (flashes_cons past e r). cbn [rev] in N. rewrite <- app_assoc in N. cbn [app] in N. apply Forall_app. split; [|now apply IH].
  destruct e; try constructor. cbn [flashes_after]. rewrite app_nil_r.
  assert (NP : NoDup (uses past)).
  { destruct (uses_app (rev r) (EvFlash :: past)) as [c E]. rewrite E in N. cbn [uses] in N. clear - N. induction c as [|x c IH]; [exact N|]. inversion N. now apply IH. }
  destruct (defined (selected past) past) as [[[k ps]|]|] eqn:D; try constructor; try constructor; try discriminate.
  intros a b [= <- <-]. now apply (defined_in k ps (selected past) past D).
Qed.
Lemma once_lemma l s : sh_run sh_init l = Ok s -> NoDup (uses (rev l)) -> forall a b, In (Some (a, b)) (sh_flashes s) -> b = a.
Proof.
  intros H N a b I. rewrite (shared_lemma l s H) in I. pose proof (once_after l []) as F. rewrite app_nil_r in F. specialize (F N). rewrite Forall_forall in F. exact (F _ I a b eq_refl).
Qed.
