(** Drill files with blanks around their lines. *)
From Verif Require Import PyBase QcLib NumModel ExcellonModel DrillEolSpec.
From Verif Require ToolProofs MacroProofs GerberTextProofs IdleProofs.
Import ListNotations.
Open Scope list_scope.

Lemma blanks_space t : blanks t -> forallb is_space t = true.
Proof.
  intros B. apply forallb_forall. intros c Hc. unfold blanks in B. rewrite Forall_forall in B. specialize (B c Hc). cbn in B.
  repeat destruct B as [<-|B]; try reflexivity. destruct B.
Qed.
Lemma blanks_no_feed t : blanks t -> ~ In (ascii_of_nat 10) t.
Proof.
  intros B Hc. unfold blanks in B. rewrite Forall_forall in B. specialize (B _ Hc). cbn in B. repeat destruct B as [B|B]; try discriminate B. exact B.
Qed.
Lemma strip_row r : good_row r -> strip (row_text r) = strip (middle r).
Proof.
  intros (B & _ & A). unfold row_text. rewrite ToolProofs.strip_front by now apply blanks_space.
  apply ToolProofs.strip_back. now apply blanks_space.
Qed.
Lemma row_no_feed r : good_row r -> ~ In (ascii_of_nat 10) (row_text r).
Proof. intros (B & M & A) H. unfold row_text in H. apply in_app_or in H as [H|H]; [now apply blanks_no_feed in H|]. apply in_app_or in H as [H|H]; [auto|now apply blanks_no_feed in H]. Qed.

Lemma split_first l s : ~ In (ascii_of_nat 10) l -> split_on nl (l ++ ascii_of_nat 10 :: s) = l :: split_on nl s.
Proof. exact (MacroProofs.split_on_app nl l s). Qed.
Lemma split_lines ls last : Forall (fun l => ~ In (ascii_of_nat 10) l) ls -> split_on nl (lines_text [ascii_of_nat 10] ls ++ last) = ls ++ split_on nl last.
Proof.
  induction 1 as [|l ls N _ IH]; [reflexivity|]. unfold lines_text. cbn [map List.concat]. fold (lines_text [ascii_of_nat 10] ls). rewrite <- !app_assoc. cbn [app].
  rewrite split_first by exact N. now rewrite IH.
Qed.
Lemma split_only l : ~ In (ascii_of_nat 10) l -> split_on nl l = [l].
Proof. intros N. apply GerberTextProofs.split_on_none. apply Forall_forall. intros x Hx ->. exact (N Hx). Qed.

Lemma rows_lines rs z : Forall good_row rs -> good_row z ->
  lines_of (lines_text [ascii_of_nat 10] (map row_text rs) ++ row_text z) = lines_of (lines_text [ascii_of_nat 10] (map middle rs) ++ middle z).
Proof.
  intros F Z. unfold lines_of. rewrite !split_lines.
  - rewrite (split_only (row_text z)) by now apply row_no_feed. rewrite (split_only (middle z)) by apply Z. rewrite !map_app. cbn [map]. rewrite (strip_row z Z). f_equal.
    rewrite !map_map. induction F as [|r rs G _ IH]; [reflexivity|]. cbn [map]. rewrite IH, (strip_row r G). reflexivity.
  - apply Forall_map. eapply Forall_impl; [|exact F]. intros r G. apply G.
  - apply Forall_map. eapply Forall_impl; [|exact F]. intros r G. now apply row_no_feed.
Qed.
Lemma rows_read hs se ext rs z : Forall good_row rs -> good_row z ->
  parse_raw hs se ext (lines_text [ascii_of_nat 10] (map row_text rs) ++ row_text z) = parse_raw hs se ext (lines_text [ascii_of_nat 10] (map middle rs) ++ middle z).
Proof. intros F Z. unfold parse_raw. now rewrite (rows_lines rs z F Z). Qed.
Lemma crlf_read hs se ext ls : Forall (fun l => ~ In (ascii_of_nat 10) l) ls ->
  parse_raw hs se ext (lines_text [ascii_of_nat 13; ascii_of_nat 10] ls) = parse_raw hs se ext (lines_text [ascii_of_nat 10] ls).
Proof.
  intros F. set (rs := map (fun l => mkRow [] l [ascii_of_nat 13]) ls).
  assert (G : Forall good_row rs).
  { unfold rs. apply Forall_map. eapply Forall_impl; [|exact F]. intros l N. split; [constructor|]. split; [exact N|]. constructor; [cbn; tauto|constructor]. }
  assert (Z : good_row (mkRow [] [] [])) by (split; [constructor|split; [intros []|constructor]]).
  pose proof (rows_read hs se ext rs _ G Z) as H. unfold rs in H. rewrite !map_map in H. cbn [row_text before middle after app] in H. rewrite !app_nil_r, map_id in H.
  rewrite <- H. f_equal. unfold lines_text. rewrite map_map. f_equal. apply map_ext. intros l. unfold row_text. cbn [before middle after app]. now rewrite <- app_assoc.
Qed.

Lemma lines_cat hs a b : forall st, parse_lines hs st (a ++ b) = do st' <- parse_lines hs st a; parse_lines hs st' b.
Proof. induction a as [|l a IH]; intros st; cbn [app parse_lines]; [reflexivity|]. destruct (parse_line hs st l); cbn [bind]; [apply IH|reflexivity]. Qed.
Lemma last_read hs se ext ls z : Forall (fun l => ~ In (ascii_of_nat 10) l) (ls ++ [z]) ->
  parse_raw hs se ext (lines_text [ascii_of_nat 10] ls ++ z) = parse_raw hs se ext (lines_text [ascii_of_nat 10] (ls ++ [z])).
Proof.
  intros F. unfold parse_raw. f_equal. unfold lines_of. pose proof F as F0. apply Forall_app in F as [F1 F2]. inversion F2; subst.
  rewrite (split_lines ls z F1), split_only by assumption.
  rewrite <- (app_nil_r (lines_text _ (ls ++ [z]))), (split_lines (ls ++ [z]) [] F0). rewrite (map_app strip (ls ++ [z])), lines_cat.
  destruct (parse_lines hs (x_start se ext) (map strip (ls ++ [z]))) as [st|e] eqn:E; [|reflexivity]. cbn [bind]. change (map strip (split_on nl [])) with [@nil ascii]. cbn [parse_lines].
  rewrite IdleProofs.blank_step; [reflexivity|]. destruct (IdleProofs.lines_prev hs (ls ++ [z]) (x_start se ext) st (or_introl eq_refl) E) as [X|[X _]]; auto.
Qed.
