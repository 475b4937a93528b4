(** Lemmas about what stays of a drill file when more lines follow. *)
From Verif Require Import PyBase QcLib NumModel NumSpec NumProofs GerberText ExcellonModel ExcellonFile ExcellonSpec ExcellonProofs ExcellonRun KeptSpec KeptProofs IdleProofs StaySpec.
From Coq Require Import Lia.
Import ListNotations.
Open Scope list_scope.

Lemma within_refl {A} (l : list A) : within l l.
Proof. induction l; now constructor. Qed.
Lemma within_trans {A} (a b c : list A) : within a b -> within b c -> within a c.
Proof.
  intros H K. revert a H. induction K as [|x b c K IH|x b c K IH]; intros a H; [exact H| |constructor; now apply IH].
  inversion H; subst; [constructor; now apply IH|constructor; now apply IH].
Qed.
Lemma within_app {A} (l s : list A) : within l (l ++ s).
Proof. induction l as [|x l IH]; cbn [app]; [|now constructor]. induction s; now constructor. Qed.
Lemma within_insert t l : within l (insert_tool t l).
Proof. induction l as [|x l IH]; [constructor|]. destruct x; cbn [insert_tool]; try (constructor; exact IH); apply within_more, within_refl. Qed.
Lemma within_map {A B} (f : A -> B) l l' : within l l' -> within (map f l) (map f l').
Proof. intros H. induction H; cbn [map]; now constructor. Qed.

Section Lines.
Variable holesize : unit_ -> text -> res (option tool).
Lemma ev_hits f a b : ev holesize f a b -> exists h, x_hits b = x_hits a ++ h.
Proof.
  intros E. induction E as [a b H|a b c E1 (h1 & H1) E2 (h2 & H2)| | | | | | | |]; cbn; try (exists []; now rewrite app_nil_r); try (eexists; reflexivity).
  - destruct H as (_ & _ & _ & _ & _ & H). exists []. now rewrite app_nil_r.
  - exists (h1 ++ h2). now rewrite H2, H1, app_assoc.
Qed.
Lemma lines_hits ls : forall st st', parse_lines holesize st ls = Ok st' -> exists h, x_hits st' = x_hits st ++ h.
Proof.
  induction ls as [|t ls IH]; intros st st' H; cbn [parse_lines] in H; [apply ok_inj in H; subst; exists []; now rewrite app_nil_r|].
  apply bind_ok in H as (s & H & K). apply parse_line_ev in H. destruct (ev_hits _ _ _ H) as (h1 & H1). destruct (IH _ _ K) as (h2 & H2). exists (h1 ++ h2). now rewrite H2, H1, app_assoc.
Qed.
(** Statements *)
Definition grow (st st' : xst) : Prop := within (x_stmts st) (x_stmts st').
Lemma grow_add t st : grow st (add_stmt t st).
Proof. apply within_app. Qed.
Lemma grow_eq st st' : x_stmts st' = x_stmts st -> grow st st'.
Proof. intros E. unfold grow. rewrite E. apply within_refl. Qed.
Lemma grow_trans a b c : grow a b -> grow b c -> grow a c.
Proof. apply within_trans. Qed.
Lemma ensure_stmts st st' : ensure_tool st = Ok st' -> x_stmts st' = x_stmts st.
Proof. exact (proj2 (ensure_blind (x_stmts st) st) st'). Qed.
Lemma repeat_stmts n dx dy st st' : repeat_hits n dx dy st = Ok st' -> x_stmts st' = x_stmts st.
Proof. exact (proj2 (repeat_blind n dx dy (x_stmts st) st) st'). Qed.
Lemma add_hit_stmts h st st' : add_hit h st = Ok st' -> x_stmts st' = x_stmts st.
Proof. exact (proj2 (add_hit_blind (fun _ => h) (fun _ _ => eq_refl) (x_stmts st) st) st'). Qed.
Lemma get_tool_stmts n st o st' : get_tool n st = Ok (o, st') -> x_stmts st' = x_stmts st.
Proof. exact (proj2 (get_tool_blind n (x_stmts st) st) o st'). Qed.
Ltac step H := repeat match type of H with
  | bind _ _ = Ok _ => let X := fresh "X" in apply bind_ok in H as (? & X & H)
  | (if ?b then _ else _) = Ok _ => destruct b
  | (match ?x with _ => _ end) = Ok _ => destruct x
  | Ok _ = Ok _ => apply ok_inj in H; subst
  | Err _ = Ok _ => discriminate
  end.
Ltac stays := repeat match goal with
  | X : get_tool _ _ = Ok ?r |- _ => is_var r; destruct r
  | |- context [x_stmts (match ?x with _ => _ end)] => destruct x
  | X : ensure_tool _ = Ok _ |- _ => apply ensure_stmts in X; cbn in X
  | X : get_tool _ _ = Ok (_, _) |- _ => apply get_tool_stmts in X; cbn in X
  | X : add_hit _ _ = Ok _ |- _ => apply add_hit_stmts in X; cbn in X
  | X : repeat_hits _ _ _ _ = Ok _ |- _ => apply repeat_stmts in X; cbn in X
  end.
Ltac done := unfold grow; cbn; repeat match goal with X : x_stmts ?a = _ |- context [x_stmts ?a] => rewrite X end; rewrite <- ?app_assoc; first [apply within_refl|apply within_app].
Lemma comment_grow line st st' : comment_line holesize line st = Ok st' -> grow st st'.
Proof.
  unfold comment_line. cbv zeta. intros H. apply bind_ok in H as (s & X & H). assert (E : grow st s) by (step X; done). apply (grow_trans _ _ _ E). clear X E st.
  destruct (text_in (T "TYPE=PLATED") _), (text_in (T "TYPE=NON_PLATED") _), (text_in (T "HEADER:") _); step H; done.
Qed.
Lemma rout_grow m line st st' : rout_line m line st = Ok st' -> grow st st'.
Proof. unfold rout_line. cbv zeta. intros H. step H; stays; done. Qed.
Lemma tool_grow line st st' : tool_line line st = Ok st' -> grow st st'.
Proof. unfold tool_line. cbv zeta. intros H. step H; stays; done. Qed.
Lemma select_grow line st st' : select_line line st = Ok st' -> grow st st'.
Proof.
  unfold select_line. cbv zeta. intros H. step H; stays; try done. unfold grow. cbn. rewrite X0. eapply within_trans; [apply within_app|apply within_insert].
Qed.
Lemma slot_grow line st st' : slot_line line st = Ok st' -> grow st st'.
Proof. unfold slot_line. cbv zeta. intros H. step H; stays; done. Qed.
Lemma coord_grow line st st' : coord_line line st = Ok st' -> grow st st'.
Proof. unfold coord_line. cbv zeta. intros H. step H; stays; done. Qed.
Lemma line_grow st line st' : parse_line holesize st line = Ok st' -> grow st st'.
Proof.
  unfold parse_line. generalize (x_prev st ++ line) as ln. clear line. intros line. cbv zeta. intros H. apply (grow_trans st (with_prev [] st)); [apply within_refl|]. remember (with_prev [] st) as s eqn:Es. clear Es st.
  destruct (strip line) as [|y ys]; [apply ok_inj in H; subst; apply within_refl|].
  repeat match type of H with (if ?b then _ else _) = _ => destruct b end;
    first [apply comment_grow in H; exact H|apply rout_grow in H; exact H|apply tool_grow in H; exact H|apply select_grow in H; exact H|apply slot_grow in H; exact H|apply coord_grow in H; exact H|idtac];
    unfold grow; step H; stays; done.
Qed.
Lemma lines_grow ls : forall st st', parse_lines holesize st ls = Ok st' -> grow st st'.
Proof.
  induction ls as [|t ls IH]; intros st st' H; cbn [parse_lines] in H; [apply ok_inj in H; subst; apply within_refl|].
  apply bind_ok in H as (s & H & K). eapply grow_trans; [eapply line_grow; exact H|now apply IH].
Qed.
Lemma file_stays se ext data more f f' : parse_raw holesize se ext data = Ok f -> parse_raw holesize se ext (data ++ nl :: more) = Ok f' ->
  (exists h, xf_hits f' = xf_hits f ++ h) /\ within (map fst (xf_stmts f)) (map fst (xf_stmts f')).
Proof.
  unfold parse_raw. intros H H'. rewrite lines_cat, parse_lines_app in H'. apply bind_ok in H as (st & E & H). rewrite E in H'. cbn [bind] in H'. apply bind_ok in H' as (st' & E' & H').
  apply bind_ok in H as (? & _ & H). apply bind_ok in H' as (? & _ & H'). apply ok_inj in H, H'. subst f f'. cbn [xf_hits xf_stmts]. split; [now apply lines_hits in E'|]. rewrite !map_map. cbn [fst]. rewrite !map_id. now apply lines_grow in E'.
Qed.
End Lines.
