(** Lemmas about the end statements of the three kinds of files. *)
From Verif Require Import PyBase QcLib NumModel MacroModel GerberText GerberEval GerberEvalSpec GerberEvalProofs.
From Verif Require ExcellonModel ExcellonProofs IdleSpec IdleProofs ToolProofs IpcModel IpcSpec IpcProofs NetIdleSpec NetIdleProofs NetFileSpec NetFileProofs EndSpec.
From Coq Require Import Lia.
Import ListNotations.
Open Scope list_scope.

Lemma gerber_end fc a b : rmap fst (evaluate_all fc g_init (a ++ SEof :: b)) = rmap fst (evaluate_all fc g_init (a ++ b)).
Proof.
  rewrite <- (neutral_filtered fc (a ++ SEof :: b) g_init), <- (neutral_filtered fc (a ++ b) g_init). rewrite !filter_app. reflexivity.
Qed.

Section Drill.
Import ExcellonModel ExcellonProofs IdleSpec IdleProofs.
Lemma end_read holesize st se : x_prev st = [] -> settings_of st = Ok se -> parse_line holesize st (T "M30") = Ok (add_stmt (EEnd None None) st).
Proof.
  intros E S. unfold parse_line. rewrite E. cbn [app]. rewrite with_prev_same by exact E. cbv zeta. change (strip (T "M30")) with (T "M30").
  change ((do se0 <- settings_of st; do xy <- read_end se0 (T "M30"); Ok (add_stmt (EEnd (fst xy) (snd xy)) st)) = Ok (add_stmt (EEnd None None) st)). rewrite S. reflexivity.
Qed.
Lemma drill_end holesize se ext a b f0 : ~ pending a -> parse_raw holesize se ext a = Ok f0 ->
  match parse_raw holesize se ext (a ++ nl :: b) with
  | Ok f => exists f', parse_raw holesize se ext (a ++ nl :: T "M30" ++ nl :: b) = Ok f' /\ one_more (EEnd None None) f f'
  | Err e => parse_raw holesize se ext (a ++ nl :: T "M30" ++ nl :: b) = Err e
  end.
Proof.
  intros P H. assert (N : ~ In nl (T "M30")) by (intros I; repeat (destruct I as [I|I]; [discriminate|]); destruct I).
  unfold parse_raw in *. rewrite !lines_cat, (lines_one _ N), !parse_lines_app. destruct (parse_lines holesize (x_start se ext) (lines_of a)) as [st|e] eqn:E; cbn [bind] in *; [|discriminate].
  assert (X : x_prev st = []) by (eapply settled; eassumption). apply bind_ok in H as (se0 & S0 & _).
  change (strip (T "M30")) with (T "M30"). cbn [app parse_lines]. rewrite (end_read holesize st se0 X S0). cbn [bind].
  set (s := EEnd None None). change (add_stmt s st) with (with_stmts (x_stmts st ++ [s]) st). pose proof (lines_sim holesize s I (lines_of b) st (x_stmts st ++ [s])) as S.
  assert (Pl : plus s (x_stmts st) (x_stmts st ++ [s])) by (exists (x_stmts st), []; split; [now rewrite app_nil_r|reflexivity]). specialize (S Pl).
  destruct (parse_lines holesize st (lines_of b)) as [s2|e]; cbn [sim] in S; [|rewrite S; reflexivity]. destruct S as (k & -> & (p & q & Ek & ->)). cbn [bind].
  change (settings_of (with_stmts (p ++ s :: q) s2)) with (settings_of s2). destruct (settings_of s2) as [se'|e]; cbn [bind]; [|reflexivity]. eexists. split; [reflexivity|].
  unfold one_more. cbn. repeat (split; [reflexivity|]). exists (map (fun x => (x, x_units s2)) p), (map (fun x => (x, x_units s2)) q), (x_units s2). rewrite Ek, !map_app. auto.
Qed.
End Drill.

Section Netlist.
Import IpcModel IpcSpec IpcProofs NetFileSpec NetFileProofs NetIdleSpec EndSpec.
Definition ended (p p' : parser) : Prop := ip_set p' = ip_set p /\ ip_names p' = ip_names p /\ exists u v, ip_stmts p = u ++ v /\ ip_stmts p' = u ++ IEnd :: v.
Definition two (r r' : res parser) : Prop := match r with Ok p => exists p', r' = Ok p' /\ ended p p' | Err e => r' = Err e end.
Lemma ended_more s p p' se na : ended p p' -> ended (mkParser se (ip_stmts p ++ [s]) na) (mkParser se (ip_stmts p' ++ [s]) na).
Proof. intros (_ & _ & u & v & E & E'). repeat (split; [reflexivity|]). exists u, (v ++ [s]). cbn. rewrite E, E', <- !app_assoc. auto. Qed.
Lemma ended_add s p p' : ended p p' -> ended (add s p) (add s p').
Proof. intros A. assert (B := A). destruct B as (B1 & B2 & _). unfold add. rewrite B1, B2. now apply ended_more. Qed.
Lemma line_two line p p' : ended p p' -> two (parse_line line p) (parse_line line p').
Proof.
  intros A. assert (AA := A). destruct A as (A1 & A2 & _). unfold parse_line. destruct line as [|c l]; [now exists p'|]. cbv zeta.
  destruct (ceq c "C"%char); [eexists; split; [reflexivity|now apply ended_add]|].
  destruct (ceq c "P"%char).
  { destruct (parameter_from_line (c :: l)) as [[n v]|e]; cbn [bind]; [|reflexivity]. rewrite A1, A2. eexists. split; [reflexivity|now apply ended_more]. }
  destruct (ceq c "9"%char); [eexists; split; [reflexivity|now apply ended_add]|].
  match goal with |- two (if ?b then _ else _) _ => destruct b end.
  { rewrite A1, A2. destruct (record_from_line (c :: l) (ip_set p)); cbn [bind]; [|reflexivity]. eexists. split; [reflexivity|now apply ended_add]. }
  match goal with |- two (if ?b then _ else _) _ => destruct b end.
  { rewrite A1. destruct (conductor_from_line (c :: l) (ip_set p)); cbn [bind]; [|reflexivity]. eexists. split; [reflexivity|now apply ended_add]. }
  match goal with |- two (if ?b then _ else _) _ => destruct b end.
  { destruct (adjacency_from_line (c :: l)); cbn [bind]; [|reflexivity]. eexists. split; [reflexivity|now apply ended_add]. }
  match goal with |- two (if ?b then _ else _) _ => destruct b end.
  { rewrite A1. destruct (outline_from_line (c :: l) (ip_set p)); cbn [bind]; [|reflexivity]. eexists. split; [reflexivity|now apply ended_add]. }
  now exists p'.
Qed.
Lemma lines_two ls : forall old p p', ended p p' -> two (parse_lines old ls p) (parse_lines old ls p').
Proof.
  induction ls as [|x ls IH]; intros old p p' A; cbn [parse_lines]; [now apply line_two|]. destruct old as [|o old]; [now apply IH|].
  destruct x as [|c x]; [|destruct (ceq c "0"%char); [now apply IH|]];
    (pose proof (line_two (o :: old) p p' A) as L; destruct (parse_line (o :: old) p) as [q|e]; cbn [two] in L; [destruct L as (q' & -> & B); cbn [bind]; now apply IH|rewrite L; reflexivity]).
Qed.
Lemma end_first t b p : no_continuation b -> two (parse_lines [] b p) (parse_lines ("9"%char :: t) b p).
Proof.
  intros N. assert (S : ended p (add IEnd p)) by (repeat (split; [reflexivity|]); exists (ip_stmts p), []; split; [now rewrite app_nil_r|reflexivity]).
  destruct b as [|l b]; cbn [parse_lines].
  - exists (add IEnd p). auto.
  - assert (E : parse_line ("9"%char :: t) p = Ok (add IEnd p)) by reflexivity.
    destruct l as [|d l]; [|rewrite (NetIdleProofs.next_head _ _ _ N)]; rewrite E; cbn [bind]; now apply lines_two.
Qed.
Lemma end_lines t b a : no_continuation b -> forall old p, two (parse_lines old (a ++ b) p) (parse_lines old (a ++ ("9"%char :: t) :: b) p).
Proof.
  intros N. induction a as [|x a IH]; intros old p; cbn [app].
  - destruct old as [|o old]; [change (parse_lines [] (("9"%char :: t) :: b) p) with (parse_lines ("9"%char :: t) b p); now apply end_first|].
    change (parse_lines (o :: old) (("9"%char :: t) :: b) p) with (do p1 <- parse_line (o :: old) p; parse_lines ("9"%char :: t) b p1).
    assert (R : parse_lines (o :: old) b p = do p1 <- parse_line (o :: old) p; parse_lines [] b p1).
    { destruct b as [|[|d l] b]; cbn [parse_lines].
      - destruct (parse_line (o :: old) p); reflexivity.
      - reflexivity.
      - now rewrite (NetIdleProofs.next_head _ _ _ N). }
    rewrite R. destruct (parse_line (o :: old) p); cbn [bind]; [now apply end_first|reflexivity].
  - cbn [parse_lines]. destruct old as [|o old]; [apply IH|]. destruct x as [|c x]; [|destruct (ceq c "0"%char); [apply IH|]]; (destruct (parse_line (o :: old) p); cbn [bind]; [apply IH|reflexivity]).
Qed.
Lemma netlist_end a b : Forall one_line (a ++ b) -> no_continuation b ->
  match parse_raw (file_of (a ++ b)) with
  | Ok n => exists n', parse_raw (file_of (a ++ T "999" :: b)) = Ok n' /\ one_more_end n n'
  | Err e => parse_raw (file_of (a ++ T "999" :: b)) = Err e
  end.
Proof.
  intros F N. unfold parse_raw. rewrite (splitlines_file _ F). apply Forall_app in F as [F1 F2].
  rewrite splitlines_file by (apply Forall_app; split; [exact F1|constructor; [unfold one_line; cbn; repeat (constructor; [reflexivity|]); constructor|exact F2]]).
  assert (B : two (parse_lines [] (a ++ b) init_parser) (parse_lines [] (a ++ T "999" :: b) init_parser)) by exact (end_lines (T "99") b a N [] init_parser). destruct (parse_lines [] (a ++ b) init_parser) as [p|e]; cbn [two] in B; [|rewrite B; reflexivity].
  destruct B as (p' & -> & (A1 & A2 & u & v & E & E')). cbn [bind]. unfold netlist_of.
  assert (R : test_records (ip_stmts p') = test_records (ip_stmts p)) by (rewrite E, E'; unfold test_records; rewrite !flat_map_app; reflexivity). rewrite R.
  destruct (mapM prim_of (test_records (ip_stmts p))) as [prims|e]; cbn [bind]; [|reflexivity]. eexists. split; [reflexivity|]. unfold one_more_end. cbn. repeat (split; [assumption || reflexivity|]). exists u, v. auto.
Qed.
End Netlist.
