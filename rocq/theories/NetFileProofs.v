(** Proofs about whole netlists. *)
From Verif Require Import PyBase QcLib NumModel IpcModel IpcSpec IpcProofs NetFileSpec.
Open Scope list_scope.

(** The names the parser has are those of the specification. *)
Definition agree (names : text -> text) (l : list (text * text)) : Prop :=
  forall n, names n = if is_nname n then match lookup n l with Some v => v | None => n end else n.

Lemma parameter_step n ws p : a_word n -> Forall a_word ws -> parse_line (parameter_line n (spaced ws)) p =
  Ok (mkParser (if teq n (T "UNITS") then set_units (spaced ws) (ip_set p) else ip_set p) (ip_stmts p ++ [IParameter n (spaced ws)]) (if is_nname n then (n, spaced ws) :: ip_names p else ip_names p)).
Proof.
  intros N W. unfold parse_line. change (parameter_line n (spaced ws)) with ("P"%char :: tl (parameter_line n (spaced ws))) at 1. cbv beta iota.
  change (ceq "P" "C") with false. change (ceq "P" "P") with true. cbn iota. rewrite parameter_words by assumption. reflexivity.
Qed.
Lemma units_word : a_word (T "UNITS").
Proof. split; [discriminate|]. do 5 (constructor; [reflexivity|]). constructor. Qed.
Lemma said_words ws se : units_said ws se -> Forall a_word ws /\ forall old, set_units (spaced ws) old = se.
Proof. intros []; (split; [|reflexivity]); repeat (constructor; [split; [discriminate|]; repeat (constructor; [reflexivity|]); constructor|]); constructor. Qed.
Lemma spaced_trimmed ws : Forall a_word ws -> trimmed (spaced ws).
Proof.
  induction 1 as [|w ws [N F] W IH]; [split; intros c r E; [discriminate|destruct r; discriminate]|].
  assert (A : forall c r, w = r ++ [c] -> is_space c = false).
  { intros c r ->. apply Forall_app in F. destruct F as [_ F]. now inversion F. }
  destruct ws as [|v ws].
  - cbn [spaced]. split; [|exact A]. intros c r ->. now inversion F.
  - change (spaced (w :: v :: ws)) with (w ++ T " " ++ spaced (v :: ws)). destruct w as [|a w]; [now destruct N|]. split.
    + cbn. intros c r E. injection E as <- _. now inversion F.
    + intros c r E. destruct IH as [_ IH].
      assert (X : exists q, spaced (v :: ws) = q ++ [c]).
      { assert (NE : spaced (v :: ws) <> []) by (inversion W as [|? ? [Nv _] _]; subst; destruct ws; cbn [spaced]; [exact Nv|destruct v; [now destruct Nv|discriminate]]).
        destruct (exists_last NE) as (q & d & Eq). rewrite Eq in E. exists q. rewrite Eq. rewrite !app_assoc in E. apply app_inj_tail in E. destruct E as [_ ->]. reflexivity. }
      destruct X as (q & X). exact (IH c q X).
Qed.
Lemma one_step se names ls ss p : says se names ls ss -> ip_set p = se -> agree names (ip_names p) ->
  match ls, ss with
  | [], [] => True
  | l :: ls', s :: ss' => exists p' se' names', parse_line l p = Ok p' /\ ip_stmts p' = ip_stmts p ++ [s] /\ ip_set p' = se' /\ agree names' (ip_names p') /\ says se' names' ls' ss'
  | _, _ => False
  end.
Proof.
  intros H S A. destruct H as [se names|se names t ls ss Tt H|se names ws se' ls ss U H|se names n ws names' ls ss V W N1 N2 H|se names n ws ls ss V N1 N2 W H|se names wid c f ls ss R I1 F1 F2 F3 H|se names net layer ap shapes ls ss H1 H2 H3 H4 H5 H6 H|se names n adj ls ss N W H|se names ty cs ls ss H1 H2 H3 H|se names ls ss H]; [exact I|..].
  - exists (add (IComment t) p), se, names. split; [|split; [reflexivity|split; [exact S|split; [exact A|exact H]]]].
    change (parse_line (T "C  " ++ t) p) with (@Ok parser (add (IComment (strip t)) p)). rewrite strip_keep by exact Tt. reflexivity.
  - destruct (said_words ws se' U) as (W & E). rewrite parameter_step by (exact W || exact units_word). rewrite E. change (teq (T "UNITS") (T "UNITS")) with true. change (is_nname (T "UNITS")) with false. cbn iota.
    eexists _, se', names. split; [reflexivity|]. cbn [ip_set ip_stmts ip_names]. split; [reflexivity|]. split; [reflexivity|]. split; [exact A|exact H].
  - rewrite parameter_step by (exact W || exact (variable_word n V)). pose proof (proj2 (nname_variable n) V) as Nn. rewrite Nn.
    assert (Hu : teq n (T "UNITS") = false) by (destruct (teq_spec n (T "UNITS")) as [->|]; [discriminate Nn|reflexivity]). rewrite Hu.
    eexists _, se, names'. split; [reflexivity|]. cbn [ip_set ip_stmts ip_names]. split; [reflexivity|]. split; [exact S|]. split; [|exact H].
    intros m. cbn [lookup]. destruct (teq_spec n m) as [<-|D]; [rewrite Nn; exact N1|]. rewrite N2 by congruence. apply A.
  - rewrite parameter_step by assumption.
    assert (Hu : teq n (T "UNITS") = false) by (destruct (teq_spec n (T "UNITS")); [contradiction|reflexivity]). rewrite Hu.
    assert (Nn : is_nname n = false) by (destruct (is_nname n) eqn:E; [exfalso; apply N2; now apply nname_variable|reflexivity]). rewrite Nn.
    eexists _, se, names. split; [reflexivity|]. cbn [ip_set ip_stmts ip_names]. repeat split; assumption || reflexivity.
  - assert (X : parse_line (record_line wid c) p = do r <- record_from_line (record_line wid c) (ip_set p); Ok (add (ITest (rename (ip_names p) r)) p)).
    { unfold parse_line, record_line. destruct I1 as [<- | [<- | [<- | []]]]; reflexivity. }
    rewrite X, S, (C71_lemma se wid c f R F1 F2 F3). cbn [bind]. eexists _, se, names. split; [reflexivity|].
    split; [|split; [exact S|split; [exact A|exact H]]]. cbn [add ip_stmts]. do 3 f_equal.
    unfold rename, set_net. cbn [the_record tr_net]. rewrite A. reflexivity.
  - assert (X : parse_line (conductor_line net layer ap shapes) p = do c <- conductor_from_line (conductor_line net layer ap shapes) (ip_set p); Ok (add (IConductor c) p)) by reflexivity.
    rewrite X, (C73_conductor_lemma (ip_set p) net layer ap shapes H1 H2 H3 H4 H5 H6). cbn [bind]. eexists _, se, names. split; [reflexivity|]. rewrite S. split; [reflexivity|]. repeat split; assumption.
  - assert (X : parse_line (T "379" ++ spaced (n :: adj)) p = do a <- adjacency_from_line (T "379" ++ spaced (n :: adj)); Ok (add (IAdjacency (fst a) (snd a)) p)) by reflexivity.
    rewrite X. unfold adjacency_from_line. change (skipn 3 (T "379" ++ spaced (n :: adj))) with (spaced (n :: adj)).
    rewrite strip_keep by (apply spaced_trimmed; now constructor). rewrite words_spaced by (now constructor). cbn [bind fst snd].
    eexists _, se, names. split; [reflexivity|]. split; [reflexivity|]. repeat split; assumption.
  - assert (X : parse_line (outline_line ty cs) p = do o <- outline_from_line (outline_line ty cs) (ip_set p); Ok (add (IOutline o) p)) by reflexivity.
    rewrite X, (C73_outline_lemma (ip_set p) ty cs H3 H1 H2). cbn [bind]. eexists _, se, names. split; [reflexivity|]. rewrite S. split; [reflexivity|]. repeat split; assumption.
  - eexists _, se, names. split; [reflexivity|]. split; [reflexivity|]. repeat split; assumption.
Qed.
Lemma run_says : forall ls se names ss p, says se names ls ss -> ip_set p = se -> agree names (ip_names p) ->
  exists p', run ls p = Ok p' /\ ip_stmts p' = ip_stmts p ++ ss.
Proof.
  induction ls as [|l ls IH]; intros se names ss p H S A.
  - pose proof (one_step _ _ _ _ p H S A) as X. destruct ss; [|destruct X]. exists p. split; [reflexivity|now rewrite app_nil_r].
  - pose proof (one_step _ _ _ _ p H S A) as X. destruct ss as [|s ss]; [destruct X|]. destruct X as (p' & se' & names' & E & Es & S' & A' & H').
    destruct (IH se' names' ss p' H' S' A') as (q & Eq & Esq). exists q. cbn [run]. rewrite E. cbn [bind]. split; [exact Eq|]. rewrite Esq, Es, <- app_assoc. reflexivity.
Qed.
Lemma says_starts se names ls ss : says se names ls ss -> Forall (fun l => exists c r, l = c :: r /\ c <> "0"%char) ls.
Proof. induction 1; constructor; try assumption; (eexists _, _; split; [reflexivity|discriminate]). Qed.
Lemma says_prims se names ls ss : says se names ls ss -> exists ps, mapM prim_of (test_records ss) = Ok ps.
Proof.
  induction 1 as [se names|se names t ls ss Tt H IH|se names ws se' ls ss U H IH|se names n ws names' ls ss V W N1 N2 H IH|se names n ws ls ss V N1 N2 W H IH|se names wid c f ls ss R I1 F1 F2 F3 H IH|se names net layer ap shapes ls ss H1 H2 H3 H4 H5 H6 H IH|se names n adj ls ss N W H IH|se names ty cs ls ss H1 H2 H3 H IH|se names ls ss H IH]; try exact IH.
  - exists []. reflexivity.
  - destruct IH as (ps & E). eexists. cbn [test_records flat_map app mapM]. fold (test_records ss). cbn [set_net the_record prim_of tr_x tr_y tr_access bind]. rewrite E. reflexivity.
Qed.
Lemma file_says ls ss : Forall one_line ls -> says (mkIS false false) (fun n => n) ls ss -> exists nl0, parse_raw (file_of ls) = Ok nl0 /\ n_stmts nl0 = ss.
Proof.
  intros O H. rewrite parse_raw_run.
  2: { pose proof (says_starts _ _ _ _ H) as F. rewrite Forall_forall in *. intros l Hl. split; [exact (O l Hl)|exact (F l Hl)]. }
  destruct (run_says ls _ _ ss init_parser H) as (p & E & Es); [reflexivity|intros n; cbn; now destruct (is_nname n)|].
  rewrite E. cbn [bind]. unfold netlist_of. change (ip_stmts init_parser ++ ss) with ss in Es. rewrite Es. destruct (says_prims _ _ _ _ H) as (ps & Ep). rewrite Ep. cbn [bind]. eexists. split; [reflexivity|reflexivity].
Qed.
