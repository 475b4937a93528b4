(** Drawing contexts in use. *)
From Verif Require Import PyBase QcLib ThemeModel ThemeSpec SessionModel SessionSpec.
Open Scope list_scope.
Open Scope Qc_scope.

Section Proofs.
Variable P : Type.
Variable source : Type.
Variable bounds_of : source -> option box.
Variable box_of : source -> res box.
Variable drawing : geometry -> bool -> bool -> source -> res (P -> Qc).
Variable scale_for : list source -> res Qc.
Variable document : point -> picture P -> text.
Notation context := (context P).
Notation action := (action P).
Notation run := (run P source bounds_of box_of drawing scale_for document).
Notation run_all := (run_all P source bounds_of box_of drawing scale_for document).
Notation output := (output P).

(** ** Nothing depends on a left-over invert, and what is drawn with settings ([k] = false) not on the colours *)
Section Alike.
Variable k : bool.
Definition alike (c c' : context) : Prop :=
  scale P c = scale P c' /\ origin P c = origin P c' /\ size P c = size P c' /\ surf P c = surf P c' /\ has_bg P c = has_bg P c' /\ count P c = count P c' /\
  (k = true -> color_ P c = color_ P c' /\ alpha P c = alpha P c' /\ background P c = background P c').
Definition same {A} (m : action A) : Prop := forall c c', alike c c' -> alike (fst (m c)) (fst (m c')) /\ snd (m c) = snd (m c').
Lemma same_ret A (a : A) : same (ret P a).
Proof. intros c c' E. now split. Qed.
Lemma same_raise A e : same (A := A) (raise P e).
Proof. intros c c' E. now split. Qed.
Lemma same_lift A (r : res A) : same (lift P r).
Proof. intros c c' E. now split. Qed.
Lemma same_then A B (m : action A) (f : A -> action B) : same m -> (forall a, same (f a)) -> same (andthen P m f).
Proof.
  intros M F c c' E. unfold andthen. destruct (M c c' E) as [X Y]. destruct (m c) as [d r], (m c') as [d' r']. cbn in X, Y. subst r'.
  destruct r as [a|e]; [exact (F a d d' X)|now split].
Qed.
Lemma same_get A (f : context -> A) : (forall c c', alike c c' -> f c = f c') -> same (get P f).
Proof. intros H c c' E. split; [exact E|]. cbn. now rewrite (H c c' E). Qed.
Lemma same_update f : (forall c c', alike c c' -> alike (f c) (f c')) -> same (update P f).
Proof. intros H c c' E. split; [exact (H c c' E)|reflexivity]. Qed.
Ltac fields := unfold alike; cbn [scale origin size surf has_bg count color_ alpha background inverted with_surface set_has_bg counted set_scale]; intuition congruence.
Ltac get_it := apply same_get; fields.
Ltac update_it := apply same_update; fields.
Lemma same_set_bounds b : same (set_bounds P b).
Proof.
  apply same_update. unfold alike, scale_point. cbn [scale origin size surf has_bg count color_ alpha background inverted].
  intros c c' (A & B & C & D & E & F & G). rewrite A, B, C, D, E, F. repeat split; intuition congruence.
Qed.
Lemma same_paint q a m : same (paint P q a m).
Proof.
  apply same_then; [get_it|]. intros [s|]; [|apply same_raise]. destruct (sf_finished P s); [apply same_raise|update_it].
Qed.
Lemma same_background s : k = true \/ s <> None -> same (paint_background P s).
Proof.
  intro H. apply same_then; [destruct s; [get_it|]|]. { destruct H as [ -> |H]; [get_it|congruence]. } intro q. apply same_then; [get_it|]. intros [|]; [apply same_ret|].
  apply same_then; [update_it|]. intros _. apply same_paint.
Qed.
Lemma same_clear : same (clear P).
Proof. update_it. Qed.
(** Drawing begins by setting invert. *)
Lemma same_drawn A i mir x (f : (P -> Qc) -> action A) : (forall m, same (f m)) -> same (andthen P (set_invert P i) (fun _ => andthen P (draw P source drawing mir x) f)).
Proof.
  intros K c c' E. unfold andthen at 1 3 5 7. cbn [set_invert update].
  set (d := mkContext _ _ _ _ _ _ _ _ _ _ i). set (d' := mkContext _ (scale P c') _ _ _ _ _ _ _ _ i).
  assert (E' : alike d d') by (revert E; unfold d, d'; fields). assert (I : inverted P d = inverted P d') by reflexivity. clearbody d d'.
  unfold andthen at 1 2 3 4. unfold draw, andthen, get. pose proof E' as (Sc & O & Z & _). rewrite I, <- Sc, <- O, <- Z.
  destruct (origin P d) as [o|]; [|now split]. destruct (size P d) as [z|]; [|now split]. unfold lift.
  destruct (drawing _ _ _ _) as [m|e]; [exact (K m d d' E')|now split].
Qed.
Lemma same_draw_layer x s : same (draw_layer P source drawing x s).
Proof. apply same_drawn. intro m. apply same_paint. Qed.
Lemma same_png f : same (write_png P f).
Proof. apply same_then; [get_it|]. intros [s|]; [|apply same_raise]. destruct (sf_finished P s); [apply same_raise|apply same_ret]. Qed.
Lemma same_dump f : same (dump P document f).
Proof.
  unfold dump. destruct (is_svg f); [|apply same_png]. apply same_then; [get_it|]. intros [s|]; [|apply same_raise].
  apply same_then; [update_it|]. intros _. apply same_ret.
Qed.
Lemma same_dump_maybe f : same (dump_maybe P document f).
Proof. destruct f; [apply same_dump|apply same_ret]. Qed.
Lemma same_svg_str : same (dump_svg_str P document).
Proof. apply same_then; [get_it|]. intros [s|]; [|apply same_raise]. apply same_then; [update_it|]. intros _. apply same_ret. Qed.
Lemma same_layer x s bg b f : same (render_layer P source bounds_of drawing document x s bg b f).
Proof.
  apply same_then; [get_it|]. intro n. apply same_then.
  - destruct (n =? 0)%nat; [|apply same_ret]. apply same_then; [exact same_clear|]. intros _. apply same_then.
    + destruct b; [apply same_set_bounds|]. destruct (bounds_of x); [apply same_set_bounds|apply same_raise].
    + intros _. apply same_background. right. discriminate.
  - intros _. apply same_then; [update_it|]. intros _. apply same_then; [apply same_draw_layer|]. intros _. apply same_dump_maybe.
Qed.
Lemma same_each ls bg : same (render_each P source bounds_of drawing document ls bg).
Proof.
  induction ls as [|[x s] ls IH]; cbn [render_each]; [apply same_ret|]. apply same_then; [apply same_layer|]. intros _. exact IH.
Qed.
Lemma same_layers ls bg f : same (render_layers P source bounds_of drawing scale_for document ls bg f).
Proof.
  apply same_then; [apply same_lift|]. intro s. apply same_then; [update_it|]. intros _. apply same_then; [exact same_clear|]. intros _.
  apply same_then; [apply same_each|]. intros _. apply same_dump.
Qed.
Lemma same_file x i f : k = true -> same (render_file P source box_of drawing document x i f).
Proof.
  intro K. apply same_then; [apply same_lift|]. intro b. apply same_then; [apply same_set_bounds|]. intros _. apply same_then; [apply same_background; now left|]. intros _.
  apply same_drawn. intro m. apply same_then; [get_it|]. intro q. apply same_then; [get_it|]. intro a.
  apply same_then; [apply same_paint|]. intros _. apply same_dump_maybe.
Qed.
Lemma same_run o : k = true -> same (run o).
Proof.
  intro K. destruct o; cbn [SessionModel.run]; try (apply same_then; [|intros _; apply same_ret]).
  - apply same_then; [apply same_lift|]. intro. update_it.
  - unfold set_alpha. destruct (_ || _)%bool; [apply same_raise|update_it].
  - apply same_then; [apply same_lift|]. intro. update_it.
  - intros c c' E. split; [|reflexivity]. revert E. cbn. fields.
  - exact same_clear.
  - apply same_layer.
  - apply same_layers.
  - now apply same_file.
  - apply same_dump.
  - apply same_png.
  - exact same_svg_str.
Qed.
Lemma same_run_all l : k = true -> forall c c', alike c c' -> alike (fst (run_all l c)) (fst (run_all l c')) /\ snd (run_all l c) = snd (run_all l c').
Proof.
  intro K. induction l as [|o l IH]; intros c c' E; cbn [SessionModel.run_all]; [now split|].
  destruct (same_run o K c c' E) as [X Y]. destruct (run o c) as [d r], (run o c') as [d' r']. cbn in X, Y. subst r'.
  destruct (IH d d' X) as [X' Y']. destruct (run_all l d) as [e rs], (run_all l d') as [e' rs']. cbn in *. split; congruence.
Qed.
End Alike.

(** ** Several layers at once *)
Definition wiped (s : Qc) (c : context) : context := fst (clear P (set_scale P s c)).
Lemma layers_wiped ls bg f s c : scale_for (map fst ls) = Ok s ->
  run (RenderLayers source ls bg f) c = andthen P (render_each P source bounds_of drawing document ls bg) (fun _ => dump P document f) (wiped s c).
Proof. intro E. cbn [SessionModel.run]. unfold render_layers, andthen at 1 2 3. unfold lift. rewrite E. reflexivity. Qed.
Lemma wiped_alike k s c c' : (k = true -> set_alike c c') -> alike k (wiped s c) (wiped s c').
Proof. intro H. unfold alike, wiped, clear, update, set_scale. cbn. repeat split; try reflexivity; destruct (H H0) as (A & B & C & D); assumption. Qed.
Lemma layers_anywhere ls bg f c c' : snd (run (RenderLayers source ls bg f) c) = snd (run (RenderLayers source ls bg f) c').
Proof.
  destruct (scale_for (map fst ls)) as [s|e] eqn:E.
  - rewrite !(layers_wiped ls bg f s) by exact E. refine (proj2 (same_then false _ _ _ _ (same_each false ls bg) (fun _ => same_dump false f) _ _ _)). apply wiped_alike. discriminate.
  - cbn [SessionModel.run]. unfold render_layers, andthen at 1 6, lift. now rewrite E.
Qed.
Lemma layers_onwards ls bg f l c c' s : scale_for (map fst ls) = Ok s -> color_ P c = color_ P c' -> alpha P c = alpha P c' -> background P c = background P c' ->
  snd (run_all (RenderLayers source ls bg f :: l) c) = snd (run_all (RenderLayers source ls bg f :: l) c').
Proof.
  intros E C A B. cbn [SessionModel.run_all]. rewrite !(layers_wiped ls bg f s) by exact E.
  assert (W : alike true (wiped s c) (wiped s c')) by (unfold alike, wiped; cbn; repeat split; assumption).
  destruct (same_then true _ _ _ _ (same_each true ls bg) (fun _ => same_dump true f) _ _ W) as [X Y].
  destruct (andthen P _ _ (wiped s c)) as [d r], (andthen P _ _ (wiped s c')) as [d' r']. cbn in X, Y. subst r'.
  pose proof (proj2 (same_run_all true l eq_refl d d' X)) as Z. destruct (run_all l d), (run_all l d'). cbn in *. congruence.
Qed.
End Proofs.
