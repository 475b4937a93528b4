(** Lemmas about lines of drill files that draw nothing. *)
From Verif Require Import PyBase QcLib NumModel NumSpec NumProofs GerberText ExcellonModel ExcellonFile ExcellonSpec ExcellonProofs ExcellonRun ExcellonMore DrillLinesSpec DrillLinesProofs KeptProofs IdleSpec.
From Verif Require ToolProofs IpcProofs.
From Coq Require Import Lia.
Import ListNotations.
Open Scope list_scope.

Definition quiet (c : estmt) : Prop := match c with ETool _ | ESel _ _ => False | _ => True end.
Definition plus (c : estmt) (l l' : list estmt) : Prop := exists p q, l = p ++ q /\ l' = p ++ c :: q.
Lemma plus_app c l l' s : plus c l l' -> plus c (l ++ s) (l' ++ s).
Proof. intros (p & q & -> & ->). exists p, (q ++ s). rewrite <- !app_assoc. auto. Qed.
Lemma plus_insert c l l' t : quiet c -> plus c l l' -> plus c (insert_tool t l) (insert_tool t l').
Proof.
  intros Q (p & q & -> & ->). induction p as [|x p IH]; cbn [app].
  - exists [], (insert_tool t q). split; [reflexivity|]. destruct c; try contradiction; reflexivity.
  - destruct IH as (p' & q' & E & E').
    destruct x; cbn [insert_tool]; try (eexists (_ :: p'), q'; rewrite E, E'; split; reflexivity); eexists (_ :: _ :: p), q; split; reflexivity.
Qed.
Definition sim (c : estmt) (r r' : res xst) : Prop :=
  match r with Ok s => exists l, r' = Ok (with_stmts l s) /\ plus c (x_stmts s) l | Err e => r' = Err e end.
(** Steps that do not look at the statements *)
Definition wsr (l : list estmt) (r : res xst) : res xst := match r with Ok s => Ok (with_stmts l s) | Err e => Err e end.
Definition blind (f : xst -> res xst) : Prop := forall l st, f (with_stmts l st) = wsr l (f st) /\ forall s, f st = Ok s -> x_stmts s = x_stmts st.
Lemma blind_sim c f st l : blind f -> plus c (x_stmts st) l -> sim c (f st) (f (with_stmts l st)).
Proof. intros B P. destruct (B l st) as [E S]. rewrite E. unfold sim, wsr. destruct (f st) as [s|e]; [|reflexivity]. exists l. split; [reflexivity|]. now rewrite (S s eq_refl). Qed.
Lemma sim_bind c r r' f : sim c r r' -> (forall s l, plus c (x_stmts s) l -> sim c (f s) (f (with_stmts l s))) -> sim c (do s <- r; f s) (do s <- r'; f s).
Proof. intros S H. destruct r as [s|e]; cbn [sim] in S; [destruct S as (l & -> & P); cbn [bind]; now apply H|subst; reflexivity]. Qed.
Lemma get_tool_blind n l st : get_tool n (with_stmts l st) = match get_tool n st with Ok (o, s) => Ok (o, with_stmts l s) | Err e => Err e end /\
  forall o s, get_tool n st = Ok (o, s) -> x_stmts s = x_stmts st.
Proof.
  unfold get_tool, adopt. cbn [x_tools x_ctools x_ext with_stmts]. change (settings_of (with_stmts l st)) with (settings_of st).
  destruct (dget n (x_tools st)); [split; [reflexivity|intros o s E; apply ok_inj in E; congruence]|].
  destruct (dget n (x_ctools st)); [|destruct (dget n (x_ext st))]; (destruct (settings_of st); split; [reflexivity|intros o s E; cbn in E; try discriminate; apply ok_inj in E; injection E as <- <-; reflexivity| reflexivity|intros o s E; cbn in E; try discriminate; apply ok_inj in E; injection E as <- <-; reflexivity ] || (split; [reflexivity|intros o s E; apply ok_inj in E; congruence])).
Qed.
Lemma ensure_blind : blind ensure_tool.
Proof.
  intros l st. unfold ensure_tool. cbn [x_active with_stmts]. destruct (x_active st); [split; [reflexivity|intros s E; apply ok_inj in E; congruence]|].
  destruct (get_tool_blind 1 l st) as [E S]. rewrite E. destruct (get_tool 1 st) as [[o s]|e]; cbn [bind fst snd wsr]; (split; [reflexivity|]); [|discriminate].
  intros s' X. apply ok_inj in X. subst s'. cbn. now apply (S o).
Qed.
Lemma add_hit_blind (h : xst -> hit) : (forall l st, h (with_stmts l st) = h st) -> blind (fun st => add_hit (h st) st).
Proof.
  intros H l st. unfold add_hit. rewrite H. cbn [x_active with_stmts]. destruct (x_active st); (split; [reflexivity|]); [|discriminate]. intros s E. apply ok_inj in E. subst s. reflexivity.
Qed.
Lemma bind_blind f g : blind f -> blind g -> blind (fun st => do s <- f st; g s).
Proof.
  intros F G l st. destruct (F l st) as [E S]. rewrite E. destruct (f st) as [s|e]; cbn [wsr bind]; [|split; [reflexivity|discriminate]].
  destruct (G l s) as [E' S']. split; [exact E'|]. intros s' X. rewrite (S' s' X). now apply S.
Qed.
Lemma repeat_blind n dx dy : blind (repeat_hits n dx dy).
Proof.
  induction n as [|n IH]; intros l st; cbn [repeat_hits]; [split; [reflexivity|intros s E; apply ok_inj in E; congruence]|]. cbv zeta.
  pose proof (bind_blind (fun st => add_hit (Hit (x_active st) (x_pos st)) st) (repeat_hits n dx dy) (add_hit_blind (fun st => Hit (x_active st) (x_pos st)) (fun _ _ => eq_refl)) IH l (with_pos ((fst (x_pos st) + dx)%Qc, (snd (x_pos st) + dy)%Qc) st)) as B.
  exact B.
Qed.
Section Lines.
Variable holesize : unit_ -> text -> res (option tool).
Variable c : estmt.
Hypothesis Q : quiet c.

Lemma sim_ok s s' l : plus c (x_stmts s) l -> s' = with_stmts l s -> sim c (Ok s) (Ok s').
Proof. intros P ->. exists l. auto. Qed.

Lemma comment_sim line st l : plus c (x_stmts st) l -> sim c (comment_line holesize line st) (comment_line holesize line (with_stmts l st)).
Proof.
  intros P. apply (plus_app _ _ _ [EComment (lstrip ";"%char line)]) in P. unfold comment_line. cbv zeta.
  change (add_stmt (EComment (lstrip ";"%char line)) (with_stmts l st)) with (with_stmts (l ++ [EComment (lstrip ";"%char line)]) (add_stmt (EComment (lstrip ";"%char line)) st)).
  change (x_stmts st ++ [EComment (lstrip ";"%char line)]) with (x_stmts (add_stmt (EComment (lstrip ";"%char line)) st)) in P.
  remember (lstrip ";"%char line) as cm eqn:Ecm. clear Ecm. remember (add_stmt (EComment cm) st) as st1 eqn:E1. clear E1. remember (l ++ [EComment cm]) as l1 eqn:El. clear El st l.
  apply sim_bind.
  - destruct (text_in (T "FILE_FORMAT") cm); [|now apply (sim_ok _ _ l1)]. destruct (read_format cm); cbn [bind]; [|reflexivity]. now apply (sim_ok _ _ l1).
  - clear st1 l1 P. intros st l P.
    destruct (text_in (T "TYPE=PLATED") cm), (text_in (T "TYPE=NON_PLATED") cm), (text_in (T "HEADER:") cm), (text_in (T " Holesize ") cm); try (now apply (sim_ok _ _ l));
      cbv zeta; match goal with |- sim c (bind (settings_of ?a) _) (bind (settings_of ?b) _) => change (settings_of b) with (settings_of st); change (settings_of a) with (settings_of st) end;
      (destruct (settings_of st) as [se|e]; cbn [bind]; [|reflexivity]; destruct (holesize (xs_units se) cm) as [[t|]|e]; cbn [bind]; [| |reflexivity]; now apply (sim_ok _ _ l)).
Qed.
Lemma rout_sim m line st l : plus c (x_stmts st) l -> sim c (rout_line m line st) (rout_line m line (with_stmts l st)).
Proof.
  intros P. unfold rout_line. cbv zeta. match goal with |- sim c (bind (settings_of ?a) _) (bind (settings_of ?b) _) => change (settings_of b) with (settings_of st); change (settings_of a) with (settings_of st) end.
  destruct (settings_of st) as [se|e]; cbn [bind]; [|reflexivity]. destruct (read_xy se (skipn 3 line)) as [[x y]|e]; cbn [bind fst snd]; [|reflexivity].
  assert (P' := plus_app c _ _ [ERoute] P). assert (P2 := plus_app c _ _ [ECoord (Some m) x y] P'). destruct m; [now apply (sim_ok _ _ ((l ++ [ERoute]) ++ [ECoord (Some Rout) x y]))|].
  cbn [x_down move_to with_pos add_stmt with_state with_stmts]. destruct (x_down st); [|now apply (sim_ok _ _ ((l ++ [ERoute]) ++ [ECoord (Some Linear) x y]))].
  set (s1 := move_to x y (add_stmt (ECoord (Some Linear) x y) (with_state SLinear (add_stmt ERoute st)))).
  apply (blind_sim c (fun s => do s2 <- ensure_tool s; add_hit (Slot (x_active s2) (some_point (x_pos st)) (some_point (x_pos s2)) true) s2) s1 ((l ++ [ERoute]) ++ [ECoord (Some Linear) x y])); [|exact P2].
  apply bind_blind; [apply ensure_blind|]. apply (add_hit_blind (fun s2 => Slot (x_active s2) (some_point (x_pos st)) (some_point (x_pos s2)) true)). reflexivity.
Qed.
Lemma tool_sim line st l : plus c (x_stmts st) l -> sim c (tool_line line st) (tool_line line (with_stmts l st)).
Proof.
  intros P. unfold tool_line. destruct (text_in (T ",OFF") line || text_in (T ",ON") line); [apply (sim_ok _ _ (l ++ [EUnknown line])); [now apply plus_app|reflexivity]|].
  change (settings_of (with_stmts l st)) with (settings_of st). destruct (settings_of st) as [se|e]; cbn [bind]; [|reflexivity]. change (x_plated (with_stmts l st)) with (x_plated st).
  destruct (read_tool se (x_plated st) line) as [t|e]; cbn [bind]; [|reflexivity]. cbv zeta. apply (sim_ok _ _ (l ++ [ETool (List.length (x_store st))])); [now apply (plus_app c)|reflexivity].
Qed.
Lemma select_sim line st l : plus c (x_stmts st) l -> sim c (select_line line st) (select_line line (with_stmts l st)).
Proof.
  intros P. unfold select_line. destruct (read_sel (skipn 1 line)) as [[n o]|e]; cbn [bind]; [|reflexivity]. cbv zeta.
  apply (plus_app _ _ _ [ESel n o]) in P. change (add_stmt (ESel n o) (with_stmts l st)) with (with_stmts (l ++ [ESel n o]) (add_stmt (ESel n o) st)).
  change (x_stmts st ++ [ESel n o]) with (x_stmts (add_stmt (ESel n o) st)) in P. remember (add_stmt (ESel n o) st) as s eqn:Es. remember (l ++ [ESel n o]) as l1 eqn:El. clear Es El st l.
  destruct (n =? 0)%Z; [now apply (sim_ok _ _ l1)|]. destruct (get_tool_blind n l1 s) as [E S]. rewrite E. destruct (get_tool n s) as [[k s2]|e]; cbn [bind]; [|reflexivity].
  specialize (S k s2 eq_refl). rewrite <- S in P. destruct k as [k|]; [now apply (sim_ok _ _ l1)|]. change (settings_of (with_stmts l1 s2)) with (settings_of s2).
  destruct (settings_of s2) as [se|e]; cbn [bind]; [|reflexivity]. cbv zeta. apply (sim_ok _ _ (insert_tool (List.length (x_store s2)) l1)); [|reflexivity]. now apply (plus_insert c).
Qed.
Lemma slot_sim line st l : plus c (x_stmts st) l -> sim c (slot_line line st) (slot_line line (with_stmts l st)).
Proof.
  intros P. unfold slot_line. change (settings_of (with_stmts l st)) with (settings_of st). destruct (settings_of st) as [se|e]; cbn [bind]; [|reflexivity].
  destruct (read_slot se line) as [[[[xs ys] xe] ye]|e]; cbn [bind]; [|reflexivity]. cbv zeta. apply (plus_app _ _ _ [ESlot xs ys xe ye]) in P.
  change (move_to xe ye (add_stmt (ESlot xs ys xe ye) (with_stmts l st))) with (with_stmts (l ++ [ESlot xs ys xe ye]) (move_to xe ye (add_stmt (ESlot xs ys xe ye) st))).
  change (x_stmts st ++ [ESlot xs ys xe ye]) with (x_stmts (move_to xe ye (add_stmt (ESlot xs ys xe ye) st))) in P. remember (move_to xe ye (add_stmt (ESlot xs ys xe ye) st)) as s eqn:Es.
  remember (l ++ [ESlot xs ys xe ye]) as l1 eqn:El. clear Es El l st. change (x_state (with_stmts l1 s)) with (x_state s).
  assert (B : sim c (do s2 <- ensure_tool s; add_hit (Slot (x_active s2) (xs, ys) (xe, ye) false) s2) (do s2 <- ensure_tool (with_stmts l1 s); add_hit (Slot (x_active s2) (xs, ys) (xe, ye) false) s2)).
  { apply (blind_sim c (fun s => do s2 <- ensure_tool s; add_hit (Slot (x_active s2) (xs, ys) (xe, ye) false) s2)); [|exact P]. apply bind_blind; [apply ensure_blind|].
    apply (add_hit_blind (fun s2 => Slot (x_active s2) (xs, ys) (xe, ye) false)). reflexivity. }
  destruct (x_state s); first [exact B|now apply (sim_ok _ _ l1)].
Qed.
Lemma coord_sim line st l : plus c (x_stmts st) l -> sim c (coord_line line st) (coord_line line (with_stmts l st)).
Proof.
  intros P. unfold coord_line. change (settings_of (with_stmts l st)) with (settings_of st). destruct (settings_of st) as [se|e]; cbn [bind]; [|reflexivity].
  destruct (read_xy se line) as [[x y]|e]; cbn [bind fst snd]; [|reflexivity]. cbv zeta. apply (plus_app _ _ _ [ECoord None x y]) in P. change (x_pos (with_stmts l st)) with (x_pos st). generalize (x_pos st) as p0. intros p0.
  change (move_to x y (add_stmt (ECoord None x y) (with_stmts l st))) with (with_stmts (l ++ [ECoord None x y]) (move_to x y (add_stmt (ECoord None x y) st))).
  change (x_stmts st ++ [ECoord None x y]) with (x_stmts (move_to x y (add_stmt (ECoord None x y) st))) in P. remember (move_to x y (add_stmt (ECoord None x y) st)) as s eqn:Es.
  remember (l ++ [ECoord None x y]) as l1 eqn:El. clear Es El l st. change (x_state (with_stmts l1 s)) with (x_state s). change (x_down (with_stmts l1 s)) with (x_down s).
  assert (B : sim c (do s2 <- ensure_tool s; add_hit (Hit (x_active s2) (x_pos s2)) s2) (do s2 <- ensure_tool (with_stmts l1 s); add_hit (Hit (x_active s2) (x_pos s2)) s2)).
  { apply (blind_sim c (fun s => do s2 <- ensure_tool s; add_hit (Hit (x_active s2) (x_pos s2)) s2)); [|exact P]. apply bind_blind; [apply ensure_blind|].
    apply (add_hit_blind (fun s2 => Hit (x_active s2) (x_pos s2))). reflexivity. }
  destruct (x_state s); first [exact B|now apply (sim_ok _ _ l1)|idtac]. destruct (x_down s); [|now apply (sim_ok _ _ l1)].
  apply sim_bind; [apply blind_sim; [apply ensure_blind|exact P]|]. intros s2 l2 P2. now apply (sim_ok _ _ l2).
Qed.
Lemma line_sim line st l : plus c (x_stmts st) l -> sim c (parse_line holesize st line) (parse_line holesize (with_stmts l st) line).
Proof.
  intros P. unfold parse_line. change (x_prev (with_stmts l st)) with (x_prev st). generalize (x_prev st ++ line) as ln. clear line. intros line. cbv zeta.
  change (with_prev [] (with_stmts l st)) with (with_stmts l (with_prev [] st)). change (x_stmts st) with (x_stmts (with_prev [] st)) in P. remember (with_prev [] st) as s eqn:Es. clear Es st.
  assert (A : forall t, plus c (x_stmts (add_stmt t s)) (l ++ [t])) by (intros t; now apply (plus_app c _ _ [t])).
  destruct (strip line) as [|y ys]; [now apply (sim_ok _ _ l)|].
  change (is_drill (with_stmts l s)) with (is_drill s). change (is_header (with_stmts l s)) with (is_header s). change (settings_of (with_stmts l s)) with (settings_of s).
  change (x_active (with_stmts l s)) with (x_active s). change (x_store (with_stmts l s)) with (x_store s).
  match goal with |- context [if ?b then comment_line _ _ _ else _] => destruct b end; [now apply comment_sim|].
  destruct (starts_with (T "M48") line); [(apply (sim_ok _ _ (l ++ [EHeaderBegin])); [exact (A (EHeaderBegin))|reflexivity])|].
  match goal with |- sim c (if ?b then _ else _) _ => destruct b end.
  { cbn [x_state add_stmt with_stmts]. destruct (x_state s); (apply (sim_ok _ _ (l ++ [ERewind])); [exact (A (ERewind))|reflexivity]). }
  match goal with |- sim c (if ?b then _ else _) _ => destruct b end.
  { destruct (x_active s) as [k|]; [|reflexivity]. destruct (tget (x_store s) k) as [t|]; [|reflexivity]. destruct (get_tool_blind (t_num t + 1) l s) as [E S]. rewrite E.
    destruct (get_tool (t_num t + 1) s) as [[o s2]|e]; cbn [bind fst snd]; [|reflexivity]. specialize (S o s2 eq_refl). apply (sim_ok _ _ (l ++ [ENext k o])); [|reflexivity]. cbn. rewrite S. now apply (plus_app c). }
  destruct (starts_with (T "M95") line).
  { change (is_header (add_stmt EHeaderEnd (with_stmts l s))) with (is_header (add_stmt EHeaderEnd s)). destruct (is_header (add_stmt EHeaderEnd s)); (apply (sim_ok _ _ (l ++ [EHeaderEnd])); [exact (A (EHeaderEnd))|reflexivity]). }
  destruct (starts_with (T "M15") line); [(apply (sim_ok _ _ (l ++ [EZRout])); [exact (A (EZRout))|reflexivity])|].
  destruct (starts_with (T "M16") line); [(apply (sim_ok _ _ (l ++ [ERetractC])); [exact (A (ERetractC))|reflexivity])|].
  destruct (starts_with (T "M17") line); [(apply (sim_ok _ _ (l ++ [ERetract])); [exact (A (ERetract))|reflexivity])|].
  destruct (starts_with (T "M30") line).
  { destruct (settings_of s) as [se|e]; cbn [bind]; [|reflexivity]. destruct (read_end se line) as [[x z]|e]; cbn [bind]; [|reflexivity]. (apply (sim_ok _ _ (l ++ [EEnd x z])); [exact (A (EEnd x z))|reflexivity]). }
  destruct (starts_with (T "G00") line); [destruct (teq (y :: ys) (T "G00")); [now apply (sim_ok _ _ l)|now apply rout_sim]|].
  destruct (starts_with (T "G01") line); [destruct (teq (y :: ys) (T "G01")); [now apply (sim_ok _ _ l)|now apply rout_sim]|].
  destruct (starts_with (T "G05") line); [(apply (sim_ok _ _ (l ++ [EDrill])); [exact (A (EDrill))|reflexivity])|].
  destruct (text_in (T "INCH") line || text_in (T "METRIC") line).
  { destruct (read_unit line) as [[u z] f]. destruct f as [[a b]|]; [(apply (sim_ok _ _ (l ++ [EUnit u z (Some (a, b))])); [exact (A (EUnit u z (Some (a, b))))|reflexivity])|(apply (sim_ok _ _ (l ++ [EUnit u z None])); [exact (A (EUnit u z None))|reflexivity])]. }
  destruct (starts_with (T "M71") line || starts_with (T "M72") line).
  { generalize (if text_in (T "M72") line then Inch else Metric) as u. intros u. (apply (sim_ok _ _ (l ++ [EMeasure u])); [exact (A (EMeasure u))|reflexivity]). }
  destruct (starts_with (T "ICI") line).
  { generalize (text_in (T "OFF") line) as u. intros u. (apply (sim_ok _ _ (l ++ [EInc (negb u)])); [exact (A (EInc (negb u)))|reflexivity]). }
  destruct (starts_with (T "VER") line); [destruct (read_one_or_two line) as [n|e]; cbn [bind]; [(apply (sim_ok _ _ (l ++ [EVer n])); [exact (A (EVer n))|reflexivity])|reflexivity]|].
  destruct (starts_with (T "FMAT") line); [destruct (read_one_or_two line) as [n|e]; cbn [bind]; [(apply (sim_ok _ _ (l ++ [EFmat n])); [exact (A (EFmat n))|reflexivity])|reflexivity]|].
  destruct (starts_with (T "G40") line); [(apply (sim_ok _ _ (l ++ [ECutOff])); [exact (A (ECutOff))|reflexivity])|].
  destruct (starts_with (T "G41") line); [(apply (sim_ok _ _ (l ++ [ECutLeft])); [exact (A (ECutLeft))|reflexivity])|].
  destruct (starts_with (T "G42") line); [(apply (sim_ok _ _ (l ++ [ECutRight])); [exact (A (ECutRight))|reflexivity])|].
  destruct (starts_with (T "G90") line); [(apply (sim_ok _ _ (l ++ [EAbs])); [exact (A (EAbs))|reflexivity])|].
  match goal with |- sim c (if ?b then _ else _) _ => destruct b end.
  { destruct (py_int_s (skipn 1 line)) as [n|e]; cbn [bind]; [(apply (sim_ok _ _ (l ++ [EFeed n])); [exact (A (EFeed n))|reflexivity])|reflexivity]. }
  match goal with |- sim c (if ?b then _ else _) _ => destruct b end; [destruct (is_header s); [now apply tool_sim|now apply select_sim]|].
  match goal with |- sim c (if ?b then _ else _) _ => destruct b end.
  { destruct (settings_of s) as [se|e]; cbn [bind]; [|reflexivity]. destruct (read_repeat se line) as [[[n x] z]|e]; cbn [bind]; [|reflexivity].
    change (add_stmt (ERepeat n x z) (with_stmts l s)) with (with_stmts (l ++ [ERepeat n x z]) (add_stmt (ERepeat n x z) s)). apply blind_sim; [apply repeat_blind|apply A]. }
  match goal with |- sim c (if ?b then _ else _) _ => destruct b end; [destruct (text_in (T "G85") line); [now apply slot_sim|now apply coord_sim]|].
  (apply (sim_ok _ _ (l ++ [EUnknown line])); [exact (A (EUnknown line))|reflexivity]).
Qed.
Lemma lines_sim ls : forall st l, plus c (x_stmts st) l -> sim c (parse_lines holesize st ls) (parse_lines holesize (with_stmts l st) ls).
Proof.
  induction ls as [|x ls IH]; intros st l P; cbn [parse_lines]; [now apply (sim_ok _ _ l)|]. apply sim_bind; [now apply line_sim|exact IH].
Qed.

(** ** Lines left for the next one *)
Lemma teq_is a b : teq a b = true -> a = b.
Proof. intros E. destruct (IpcProofs.teq_spec a b); [assumption|discriminate]. Qed.
Lemma helper_prev st st' : x_down st' = x_down st /\ x_prev st' = x_prev st -> x_prev st' = x_prev st.
Proof. tauto. Qed.
Ltac step H := repeat match type of H with
  | bind _ _ = Ok _ => let X := fresh "X" in apply bind_ok in H as (? & X & H)
  | (if ?b then _ else _) = Ok _ => destruct b
  | (match ?x with _ => _ end) = Ok _ => destruct x
  | Ok _ = Ok _ => apply ok_inj in H; subst
  | Err _ = Ok _ => discriminate
  end.
Ltac prevs := repeat match goal with
  | X : get_tool _ _ = Ok ?r |- _ => is_var r; destruct r
  | |- context [x_prev (match ?x with _ => _ end)] => destruct x
  | X : ensure_tool _ = Ok _ |- _ => apply ensure_tool_down, helper_prev in X; cbn in X
  | X : get_tool _ _ = Ok (_, _) |- _ => apply get_tool_down, helper_prev in X; cbn in X
  | X : add_hit _ _ = Ok _ |- _ => apply add_hit_down, helper_prev in X; cbn in X
  | X : repeat_hits _ _ _ _ = Ok _ |- _ => apply repeat_hits_down, helper_prev in X; cbn in X
  end.
Lemma comment_prev line st st' : comment_line holesize line st = Ok st' -> x_prev st' = x_prev st.
Proof.
  unfold comment_line. cbv zeta. intros H. apply bind_ok in H as (s & X & H). assert (E : x_prev s = x_prev st) by (step X; reflexivity). rewrite <- E. clear X E st.
  destruct (text_in (T "TYPE=PLATED") _), (text_in (T "TYPE=NON_PLATED") _), (text_in (T "HEADER:") _); step H; reflexivity.
Qed.
Lemma rout_prev m line st st' : rout_line m line st = Ok st' -> x_prev st' = x_prev st.
Proof. unfold rout_line. cbv zeta. intros H. step H; prevs; cbn; congruence. Qed.
Lemma tool_prev line st st' : tool_line line st = Ok st' -> x_prev st' = x_prev st.
Proof. unfold tool_line. cbv zeta. intros H. step H; reflexivity. Qed.
Lemma select_prev line st st' : select_line line st = Ok st' -> x_prev st' = x_prev st.
Proof. unfold select_line. cbv zeta. intros H. step H; prevs; cbn; congruence. Qed.
Lemma slot_prev line st st' : slot_line line st = Ok st' -> x_prev st' = x_prev st.
Proof. unfold slot_line. cbv zeta. intros H. step H; prevs; cbn; congruence. Qed.
Lemma coord_prev line st st' : coord_line line st = Ok st' -> x_prev st' = x_prev st.
Proof. unfold coord_line. cbv zeta. intros H. step H; prevs; cbn; congruence. Qed.
Lemma line_prev st line st' : parse_line holesize st line = Ok st' ->
  x_prev st' = [] \/ (x_prev st' = x_prev st ++ line /\ (strip (x_prev st ++ line) = T "G00" \/ strip (x_prev st ++ line) = T "G01")).
Proof.
  unfold parse_line. generalize (x_prev st ++ line) as ln. clear line. intros line. cbv zeta. assert (P0 : x_prev (with_prev [] st) = []) by reflexivity. remember (with_prev [] st) as s eqn:Es. clear Es st.
  destruct (strip line) as [|y ys]; intros H; [apply ok_inj in H; subst; now left|].
  match type of H with (if ?b then _ else _) = _ => destruct b end; [left; apply comment_prev in H; congruence|].
  do 7 (match type of H with (if ?b then _ else _) = _ => destruct b end; [left; step H; prevs; cbn; congruence|]).
  match type of H with (if ?b then _ else _) = _ => destruct b end; [left; step H; prevs; cbn; congruence|].
  match type of H with (if ?b then _ else _) = _ => destruct b end.
  { destruct (teq (y :: ys) (T "G00")) eqn:E; [|left; apply rout_prev in H; congruence]. right. apply ok_inj in H. subst st'. split; [reflexivity|]. left. exact (teq_is _ _ E). }
  match type of H with (if ?b then _ else _) = _ => destruct b end.
  { destruct (teq (y :: ys) (T "G01")) eqn:E; [|left; apply rout_prev in H; congruence]. right. apply ok_inj in H. subst st'. split; [reflexivity|]. right. exact (teq_is _ _ E). }
  do 10 (match type of H with (if ?b then _ else _) = _ => destruct b end; [left; step H; prevs; cbn; congruence|]).
  left. repeat match type of H with (if ?b then _ else _) = _ => destruct b end;
    try (first [apply tool_prev in H|apply select_prev in H|apply slot_prev in H|apply coord_prev in H]; congruence); step H; prevs; cbn; congruence.
Qed.

Lemma space_list s : spaces s <-> forallb is_space s = true.
Proof. unfold spaces. now rewrite forallb_forall, Forall_forall. Qed.
Lemma lstrip_decomp p s : exists a, s = a ++ lstrip_p p s /\ Forall (fun x => p x = true) a.
Proof.
  induction s as [|x s (a & E & F)]; [now exists []|]. cbn [lstrip_p]. destruct (p x) eqn:Px; [|now exists []]. exists (x :: a). split; [cbn; congruence|now constructor].
Qed.
Lemma strip_decomp s : exists a b, s = a ++ strip s ++ b /\ spaces a /\ spaces b.
Proof.
  destruct (lstrip_decomp is_space s) as (a & E & A). unfold strip, strip_p, rstrip_p. set (m := lstrip_p is_space s) in *. destruct (lstrip_decomp is_space (rev m)) as (b & E' & B).
  exists a, (rev b). split; [|split; [exact A|now apply Forall_rev]]. rewrite E at 1. f_equal. rewrite <- (rev_involutive m) at 1. rewrite E' at 1. now rewrite rev_app_distr.
Qed.
Lemma tight_strip t : tight t -> strip t = t.
Proof. exact (IpcProofs.strip_keep t). Qed.
Lemma strip_tight s : tight (strip s).
Proof.
  unfold strip, strip_p. set (m := lstrip_p is_space s).
  assert (H1 : forall q c r, lstrip_p is_space q = c :: r -> is_space c = false).
  { intros q. induction q as [|x q IH]; intros k r E; cbn [lstrip_p] in E; [discriminate|]. destruct (is_space x) eqn:S; [now apply (IH k r)|congruence]. }
  split; intros k r E.
  - unfold rstrip_p in E. destruct (lstrip_decomp is_space (rev m)) as (b & E' & B).
    assert (M : m = (k :: r) ++ rev b) by (rewrite <- E, <- rev_app_distr, <- E'; now rewrite rev_involutive). exact (H1 s k (r ++ rev b) M).
  - unfold rstrip_p in E. apply (H1 (rev m) k (rev r)). rewrite <- (rev_involutive (lstrip_p is_space (rev m))), E, rev_app_distr. reflexivity.
Qed.
Definition lone (t : text) : Prop := t = T "G00" \/ t = T "G01".
Lemma lone_front w t : lone w -> tight t -> t <> [] -> strip (w ++ t) = w ++ t.
Proof.
  intros W [_ B] N. apply tight_strip. split.
  - intros k r E. destruct W as [ -> | -> ]; cbn in E; injection E as <- _; reflexivity.
  - intros k r E. destruct (exists_last N) as (t' & x & ->). rewrite app_assoc in E. apply app_inj_tail in E as [_ <-]. now apply (B x t').
Qed.
Lemma lines_prev ls : forall st st', (x_prev st = [] \/ lone (x_prev st)) -> parse_lines holesize st (map strip ls) = Ok st' ->
  x_prev st' = [] \/ lone (x_prev st') /\ ((x_prev st <> [] /\ Forall (fun x => strip x = []) ls) \/ exists l1 w l2, ls = l1 ++ w :: l2 /\ lone (strip w) /\ Forall (fun x => strip x = []) l2).
Proof.
  induction ls as [|x ls IH]; intros st st' I H; cbn [map parse_lines] in H.
  - apply ok_inj in H. subst st'. destruct I as [I|I]; [now left|right]. split; [exact I|]. left. split; [|constructor]. destruct I as [ -> | -> ]; discriminate.
  - apply bind_ok in H as (s & H & K).
    assert (J : x_prev s = [] \/ lone (x_prev s) /\ (lone (strip x) \/ x_prev st <> [] /\ strip x = [])).
    { destruct (line_prev _ _ _ H) as [E|[E L]]; [now left|]. right. destruct I as [I|I].
      - rewrite I in E, L. cbn [app] in E, L. rewrite (tight_strip _ (strip_tight x)) in L. rewrite E. auto.
      - assert (Z : strip x = []).
        { destruct (strip x) as [|y ys] eqn:X; [reflexivity|]. exfalso. rewrite lone_front in L; [|exact I|rewrite <- X; apply strip_tight|discriminate].
          destruct I as [I|I]; rewrite I in L; destruct L as [L|L]; cbn in L; discriminate L. }
        rewrite Z in *. rewrite app_nil_r in E, L. rewrite E. split; [exact I|]. right. split; [|reflexivity]. destruct I as [I|I]; rewrite I; discriminate. }
    assert (I' : x_prev s = [] \/ lone (x_prev s)) by tauto.
    destruct (IH s st' I' K) as [E|[L [[N F]|(l1 & w & l2 & -> & W & F)]]]; [now left| |].
    + right. split; [exact L|]. destruct J as [J|[_ [J|[J1 J2]]]]; [contradiction| |left; split; [exact J1|now constructor]]. right. exists [], x, ls. auto.
    + right. split; [exact L|]. right. exists (x :: l1), w, l2. auto.
Qed.
Lemma split_some k a : split_on k a <> [].
Proof. destruct a as [|y a]; cbn [split_on]; [discriminate|]. destruct (split_on k a); [discriminate|]. destruct (ceq y k); discriminate. Qed.
Lemma split_first a w rest : split_on nl a = w :: rest -> ~ In nl w /\ ((rest = [] /\ a = w) \/ exists b, a = w ++ nl :: b /\ split_on nl b = rest).
Proof.
  revert w rest. induction a as [|x a IH]; intros w rest E; cbn [split_on] in E.
  - injection E as <- <-. split; [now intros []|]. now left.
  - destruct (split_on nl a) as [|w' ws] eqn:S.
    + now apply split_some in S.
    + destruct (ceq_spec x nl) as [->|N].
      * injection E as <- <-. split; [now intros []|]. right. exists a. auto.
      * injection E as <- <-. destruct (IH w' ws eq_refl) as [NI D]. split; [intros [X|X]; auto|]. destruct D as [[-> ->]|(b & -> & B)]; [now left|right]. now exists b.
Qed.
Lemma blank_lines a : Forall (fun x => strip x = []) (split_on nl a) -> spaces a.
Proof.
  remember (split_on nl a) as ls eqn:E. revert a E. induction ls as [|w ls IH]; intros a E F.
  - symmetry in E. now apply split_some in E.
  - inversion F as [|x y Fw Fl]; subst. symmetry in E. destruct (split_first a w ls E) as [_ [[-> ->]|(b & -> & B)]];
      (assert (W : spaces w) by (destruct (strip_decomp w) as (p & q & Ew & P & Z); rewrite Ew, Fw; now apply Forall_app)); [exact W|].
    apply Forall_app. split; [exact W|]. constructor; [reflexivity|]. apply IH; [now symmetry|exact Fl].
Qed.
Lemma pending_lines l1 : forall a w l2, split_on nl a = l1 ++ w :: l2 -> lone (strip w) -> Forall (fun x => strip x = []) l2 -> pending a.
Proof.
  induction l1 as [|x l1 IH]; intros a w l2 E W F; cbn [app] in E; destruct (split_first _ _ _ E) as [N D].
  - destruct (strip_decomp w) as (p & q & Ew & P & Z). assert (NP : ~ In nl p) by (intros J; apply N; rewrite Ew; apply in_or_app; now left).
    destruct D as [[-> ->]|(b & -> & B)].
    + exists [], p, (strip w), q. auto 10.
    + exists [], p, (strip w), (q ++ nl :: b). split; [rewrite Ew at 1; cbn [app]; now rewrite <- !app_assoc|]. split; [now left|]. split; [exact P|]. split; [exact NP|]. split; [|exact W].
      apply Forall_app. split; [exact Z|]. constructor; [reflexivity|]. apply blank_lines. now rewrite B.
  - destruct D as [[D _]|(b & -> & B)]; [destruct l1; discriminate|]. destruct (IH b w l2 B W F) as (p & l & v & r & -> & Hp & R). exists (x ++ nl :: p), l, v, r.
    split; [now rewrite <- app_assoc|]. split; [|exact R]. right. destruct Hp as [->|(p' & ->)]; [exists x; reflexivity|]. exists (x ++ nl :: p'). now rewrite <- app_assoc.
Qed.
Lemma settled se ext a st : ~ pending a -> parse_lines holesize (x_start se ext) (lines_of a) = Ok st -> x_prev st = [].
Proof.
  intros N H. destruct (lines_prev (split_on nl a) (x_start se ext) st (or_introl eq_refl) H) as [E|[_ [[X _]|(l1 & w & l2 & E & W & F)]]]; [exact E|now destruct X|]. destruct N. eapply pending_lines; eassumption.
Qed.
End Lines.

(** ** Lines that are noted only *)
Lemma not_begins p s : ~ begins p s -> starts_with p s = false.
Proof. intro N. destruct (starts_with p s) eqn:E; [|reflexivity]. destruct N. now apply starts_with_app. Qed.
Lemma not_head x s : ~ begins [x] s -> (match s with d :: _ => ceq d x | [] => false end) = false.
Proof. intros N. destruct s as [|d s]; [reflexivity|]. destruct (ceq_spec d x) as [->|]; [destruct N; now exists s|reflexivity]. Qed.
Lemma idle_read holesize t s st : idle t s -> tight t -> x_prev st = [] -> parse_line holesize st t = Ok (add_stmt s st).
Proof.
  intros I G E. destruct I as [c C|ds D N|n V| | | |t (A & B & W) N].
  - now apply comment_read.
  - cbn [T list_ascii_of_string app]. rewrite dispatch_feed; [|exact E| | |]; try (intro J; unfold digit_string in D; rewrite Forall_forall in D; apply D in J; apply digit_in in J; discriminate).
    now rewrite py_int_s_digits.
  - destruct V as [ -> | -> ]; [change (T "VER," ++ show_int 1) with (T "VER,1")|change (T "VER," ++ show_int 2) with (T "VER,2")]; disp st E; reflexivity.
  - disp st E; reflexivity.
  - disp st E; reflexivity.
  - disp st E; reflexivity.
  - unfold parse_line. rewrite E. cbn [app]. rewrite with_prev_same by exact E. cbv zeta. rewrite (tight_strip t G). destruct t as [|x t]; [now destruct N|].
    rewrite (not_contained _ _ A), (not_contained _ _ B). cbn [orb].
    pose proof (fun w J => not_begins w (x :: t) (W w J)) as K. pose proof (fun y J => not_head y (x :: t) (W [y] J)) as K1. cbv beta iota in K1.
    rewrite !K by (cbn; repeat (first [left; reflexivity|right])). 
    rewrite !K1 by (cbn; repeat (first [left; reflexivity|right])). reflexivity.
Qed.
Lemma idle_quiet t s : idle t s -> quiet s.
Proof. now intros []. Qed.
Lemma lines_cat a b : lines_of (a ++ nl :: b) = lines_of a ++ lines_of b.
Proof. unfold lines_of. now rewrite split_on_cat, map_app. Qed.
Lemma lines_one w : ~ In nl w -> lines_of w = [strip w].
Proof.
  intros N. unfold lines_of. destruct (split_on nl w) as [|x rest] eqn:E; [now apply split_some in E|]. destruct (split_first _ _ _ E) as [_ [[-> ->]|(b & -> & _)]]; [reflexivity|].
  destruct N. apply in_or_app. right. now left.
Qed.
Lemma idle_file holesize se ext a l t r b s : idle t s -> tight t -> spaces l -> spaces r -> ~ In nl (l ++ t ++ r) -> ~ pending a ->
  match parse_raw holesize se ext (a ++ nl :: b) with
  | Ok f => exists f', parse_raw holesize se ext (a ++ nl :: (l ++ t ++ r) ++ nl :: b) = Ok f' /\ one_more s f f'
  | Err e => parse_raw holesize se ext (a ++ nl :: (l ++ t ++ r) ++ nl :: b) = Err e
  end.
Proof.
  intros I G L R N P. unfold parse_raw. rewrite !lines_cat, (lines_one _ N), !parse_lines_app. destruct (parse_lines holesize (x_start se ext) (lines_of a)) as [st|e] eqn:E; cbn [bind]; [|reflexivity].
  assert (X : x_prev st = []) by (eapply settled; eassumption).
  rewrite ToolProofs.strip_front by now apply space_list. rewrite ToolProofs.strip_back by now apply space_list. rewrite (tight_strip t G). cbn [app parse_lines]. rewrite (idle_read holesize t s st I G X). cbn [bind].
  change (add_stmt s st) with (with_stmts (x_stmts st ++ [s]) st). pose proof (lines_sim holesize s (idle_quiet t s I) (lines_of b) st (x_stmts st ++ [s])) as S.
  assert (Pl : plus s (x_stmts st) (x_stmts st ++ [s])) by (exists (x_stmts st), []; split; [now rewrite app_nil_r|reflexivity]). specialize (S Pl).
  destruct (parse_lines holesize st (lines_of b)) as [s2|e]; cbn [sim] in S; [|rewrite S; reflexivity]. destruct S as (k & -> & (p & q & Ek & ->)). cbn [bind].
  change (settings_of (with_stmts (p ++ s :: q) s2)) with (settings_of s2). destruct (settings_of s2) as [se'|e]; cbn [bind]; [|reflexivity]. eexists. split; [reflexivity|].
  unfold one_more. cbn. repeat (split; [reflexivity|]). exists (map (fun x => (x, x_units s2)) p), (map (fun x => (x, x_units s2)) q), (x_units s2). rewrite Ek, !map_app. auto.
Qed.
(** Blank lines: also after a lone G00 or G01 *)
Lemma blank_step holesize st : x_prev st = [] \/ lone (x_prev st) -> parse_line holesize st [] = Ok st.
Proof.
  intros [E|E].
  - unfold parse_line. rewrite E. cbn [app]. change (strip []) with (@nil ascii). cbv zeta. now rewrite with_prev_same.
  - unfold parse_line. rewrite app_nil_r. assert (W : with_prev (x_prev st) (with_prev [] st) = st) by now destruct st. destruct E as [E|E]; rewrite E in W |- *; cbv zeta.
    + change (strip (T "G00")) with (T "G00"). change (Ok (with_prev (T "G00") (with_prev [] st)) = Ok st). now rewrite W.
    + change (strip (T "G01")) with (T "G01"). change (Ok (with_prev (T "G01") (with_prev [] st)) = Ok st). now rewrite W.
Qed.
Lemma blank_file holesize se ext a w b : spaces w -> parse_raw holesize se ext (a ++ nl :: w ++ nl :: b) = parse_raw holesize se ext (a ++ nl :: b).
Proof.
  intros W. unfold parse_raw. rewrite !lines_cat, !parse_lines_app. destruct (parse_lines holesize (x_start se ext) (lines_of a)) as [st|e] eqn:E; cbn [bind]; [|reflexivity].
  assert (J : x_prev st = [] \/ lone (x_prev st)) by (destruct (lines_prev holesize (split_on nl a) (x_start se ext) st (or_introl eq_refl) E) as [X|[X _]]; auto).
  assert (K : parse_lines holesize st (lines_of w) = Ok st).
  { clear E. unfold lines_of. assert (F : Forall (fun x => strip x = []) (split_on nl w)).
    { apply Forall_forall. intros x I. apply split_on_sub in I as (p & q & ->). apply Forall_app in W as [_ W]. apply Forall_app in W as [W _]. unfold strip, strip_p. rewrite IpcProofs.lstrip_all; [reflexivity|now apply space_list]. }
    induction F as [|x ls Fx F IH]; [reflexivity|]. cbn [map parse_lines]. rewrite Fx, blank_step by exact J. exact IH. }
  rewrite parse_lines_app, K. reflexivity.
Qed.
Lemma lead holesize se ext b : parse_raw holesize se ext (nl :: b) = parse_raw holesize se ext b.
Proof. unfold parse_raw. change (nl :: b) with ([] ++ nl :: b). rewrite lines_cat, parse_lines_app. reflexivity. Qed.
Lemma idle_first holesize se ext l t r b s : idle t s -> tight t -> spaces l -> spaces r -> ~ In nl (l ++ t ++ r) ->
  match parse_raw holesize se ext b with
  | Ok f => exists f', parse_raw holesize se ext ((l ++ t ++ r) ++ nl :: b) = Ok f' /\ one_more s f f'
  | Err e => parse_raw holesize se ext ((l ++ t ++ r) ++ nl :: b) = Err e
  end.
Proof.
  intros I G L R N. rewrite <- (lead holesize se ext b), <- (lead holesize se ext ((l ++ t ++ r) ++ nl :: b)). apply (idle_file holesize se ext [] l t r b s); try assumption.
  intros (p & l' & w & r' & E & _ & _ & _ & _ & W). symmetry in E. apply app_eq_nil in E as [_ E]. apply app_eq_nil in E as [_ E]. apply app_eq_nil in E as [E _]. destruct W as [ -> | -> ]; discriminate.
Qed.
(** ** Words that a line does not have *)
Lemma begins_starts w s : starts_with w s = false -> ~ begins w s.
Proof. intros H (b & ->). enough (X : starts_with w (w ++ b) = true) by congruence. clear. induction w as [|x w IH]; [reflexivity|]. cbn. now rewrite ceq_refl. Qed.
Lemma contains_in w s : text_in w s = false -> ~ contains w s.
Proof.
  intros H (p & q & ->). enough (X : text_in w (p ++ w ++ q) = true) by congruence. clear H. induction p as [|c p IH].
  - cbn [app]. assert (X : starts_with w (w ++ q) = true) by (clear; induction w as [|x w IH]; [reflexivity|cbn; now rewrite ceq_refl]). destruct (w ++ q) as [|c r]; cbn [text_in]; rewrite X; reflexivity.
  - cbn [app text_in]. rewrite IH. apply Bool.orb_true_r.
Qed.
