(** What is drawn on a context in use. *)
From Verif Require Import PyBase QcLib ThemeModel ThemeSpec ThemeProofs SessionModel SessionSpec SessionProofs.
Open Scope list_scope.
Open Scope Qc_scope.

Section Draw.
Variable P : Type.
Variable source : Type.
Variable bounds_of : source -> option box.
Variable box_of : source -> res box.
Variable drawing : geometry -> bool -> bool -> source -> res (P -> Qc).
Variable scale_for : list source -> res Qc.
Variable document : point -> picture P -> text.
Notation context := (context P).
Notation action := (action P).
Notation run := (run P source bounds_of box_of drawing scale_for document).
Notation run_all := (run_all P source bounds_of box_of drawing scale_for document).

Definition pixels (g : geometry) : point := (fst (g_size g) * g_scale g, snd (g_size g) * g_scale g).
Definition shows (c : context) (g : geometry) (l : P -> list (color * Qc)) : Prop :=
  exists im t n, surf P c = Some (mkSurface P (pixels g) im false t n) /\ origin P c = Some (g_origin g) /\ size P c = Some (g_size g) /\ scale P c = g_scale g /\ has_bg P c = true /\
    forall p, mixed (l p) (im p).
Definition keeps (c c' : context) : Prop := color_ P c' = color_ P c /\ alpha P c' = alpha P c /\ background P c' = background P c.
Lemma keeps_refl c : keeps c c. Proof. now split. Qed.
Lemma keeps_trans a b c : keeps a b -> keeps b c -> keeps a c. Proof. unfold keeps. intuition congruence. Qed.
Definition geometry_of (s : Qc) (b : box) : geometry := mkGeometry s (box_origin b) (box_size b).

Lemma paint_step c g l k a m : shows c g l -> exists c', paint P k a m c = (c', Ok tt) /\ shows c' g (fun p => l p ++ [(k, a * m p)]) /\ keeps c c' /\ count P c' = count P c.
Proof.
  intros (im & t & n & S & O & Z & Sc & B & M). unfold paint, andthen, get. rewrite S. cbn [sf_finished sf_size sf_picture sf_text sf_position]. eexists. split; [reflexivity|].
  split; [|split; [(repeat split)|reflexivity]]. exists (fun p => over k (a * m p) (im p)), t, n. cbn. repeat (split; [solve [reflexivity | assumption]|]).
  intro p. exact (mixed_over _ _ _ _ (M p)).
Qed.
Lemma invert_step c g l i : shows c g l -> exists c', set_invert P i c = (c', Ok tt) /\ shows c' g l /\ keeps c c' /\ count P c' = count P c /\ inverted P c' = i.
Proof. intro H. eexists. split; [reflexivity|]. split; [exact H|]. split; [(repeat split)|now split]. Qed.
Lemma draw_step c g l mir x : shows c g l -> draw P source drawing mir x c = (c, drawing g (inverted P c) mir x).
Proof.
  intros (im & t & n & S & O & Z & Sc & B & M). unfold draw, andthen, get. rewrite O, Z, Sc. unfold lift. destruct g; reflexivity.
Qed.
Lemma draw_layer_step c g l x s m : shows c g l -> drawing g (s_invert s) (s_mirror s) x = Ok m ->
  exists c', draw_layer P source drawing x s c = (c', Ok tt) /\ shows c' g (fun p => l p ++ [(s_color s, s_alpha s * m p)]) /\ keeps c c' /\ count P c' = count P c.
Proof.
  intros H D. destruct (invert_step c g l (s_invert s) H) as (d & Ed & Hd & Kd & Cd & Id).
  destruct (paint_step d g l (s_color s) (s_alpha s) m Hd) as (e & Ee & He & Ke & Ce). exists e. split; [|split; [exact He|split; [exact (keeps_trans _ _ _ Kd Ke)|congruence]]].
  unfold draw_layer, andthen at 1. rewrite Ed. unfold andthen. rewrite (draw_step d g l _ x Hd), Id, D. exact Ee.
Qed.
Lemma old_bounds c g l b : shows c g l -> exists c', set_bounds P b c = (c', Ok tt) /\ shows c' g l /\ keeps c c' /\ count P c' = count P c.
Proof.
  intros (im & t & n & S & O & Z & Sc & B & M). eexists. split; [reflexivity|]. split; [|split; [(repeat split)|reflexivity]].
  exists im, t, n. cbn. rewrite S, O, Z. repeat (split; [solve [reflexivity | assumption]|]). exact M.
Qed.
Lemma old_background c g l s : shows c g l -> paint_background P s c = (c, Ok tt).
Proof. intros (im & t & n & S & O & Z & Sc & B & M). unfold paint_background, andthen, get. rewrite B. reflexivity. Qed.
Lemma new_bounds c b s : origin P c = None -> size P c = None -> surf P c = None -> has_bg P c = false ->
  exists c', andthen P (set_bounds P b) (fun _ => paint_background P s) c = (c', Ok tt) /\ keeps c c' /\ count P c' = count P c /\
    shows c' (geometry_of (scale P c) b) (fun _ => [match s with Some s => (s_color s, s_alpha s * 1) | None => (background P c, 1 * 1) end]).
Proof.
  intros O Z S B. unfold andthen at 1, set_bounds, update. rewrite O, Z, S. cbn [first]. unfold paint_background, andthen, get. cbn [has_bg]. rewrite B. cbn.
  eexists. split; [reflexivity|]. split; [(repeat split)|]. split; [reflexivity|]. eexists _, _, _. cbn.
  split; [reflexivity|]. repeat (split; [reflexivity|]). intro p. destruct s; exact (mixed_over [] _ _ _ mixed_nil).
Qed.

(** ** Files *)
Lemma file_tail c g l x i m : shows c g l -> drawing g i false x = Ok m ->
  exists c', andthen P (set_invert P i) (fun _ => andthen P (draw P source drawing false x) (fun m => andthen P (get P (color_ P)) (fun k => andthen P (get P (alpha P)) (fun a => andthen P (paint P k a m) (fun _ => dump_maybe P document None))))) c = (c', Ok []) /\
    shows c' g (fun p => l p ++ [(color_ P c, alpha P c * m p)]) /\ keeps c c' /\ count P c' = count P c.
Proof.
  intros H D. destruct (invert_step c g l i H) as (d & Ed & Hd & Kd & Cd & Id).
  destruct (paint_step d g l (color_ P d) (alpha P d) m Hd) as (e & Ee & He & Ke & Ce). exists e. split.
  - unfold andthen at 1. rewrite Ed. unfold andthen at 1. rewrite (draw_step d g l _ x Hd), Id, D. unfold andthen, get. rewrite Ee. reflexivity.
  - destruct Kd as (A & B & C). rewrite A, B in He. split; [exact He|]. split; [|congruence]. refine (keeps_trans _ d _ _ Ke). now split.
Qed.
Lemma file_step c g l x i b m : shows c g l -> box_of x = Ok b -> drawing g i false x = Ok m ->
  exists c', run (RenderFile source x i None) c = (c', Ok []) /\ shows c' g (fun p => l p ++ [(color_ P c, alpha P c * m p)]) /\ keeps c c' /\ count P c' = count P c.
Proof.
  intros H B D. destruct (old_bounds c g l b H) as (d & Ed & Hd & (K1 & K2 & K3) & Cd). destruct (file_tail d g l x i m Hd D) as (e & Ee & He & Ke & Ce).
  exists e. rewrite K1, K2 in He. split; [|split; [exact He|split; [refine (keeps_trans _ d _ _ Ke); now split|congruence]]].
  cbn [SessionModel.run]. unfold render_file, andthen at 1, lift. rewrite B. unfold andthen at 1. rewrite Ed. unfold andthen at 1. rewrite (old_background d g l None Hd). exact Ee.
Qed.
Lemma file_first c x i b m : origin P c = None -> size P c = None -> surf P c = None -> has_bg P c = false -> box_of x = Ok b -> drawing (geometry_of (scale P c) b) i false x = Ok m ->
  exists c', run (RenderFile source x i None) c = (c', Ok []) /\ shows c' (geometry_of (scale P c) b) (fun p => [(background P c, 1 * 1)] ++ [(color_ P c, alpha P c * m p)]) /\ keeps c c' /\ count P c' = count P c.
Proof.
  intros O Z S N B D. destruct (new_bounds c b None O Z S N) as (d & Ed & (K1 & K2 & K3) & Cd & Hd). destruct (file_tail d _ _ x i m Hd D) as (e & Ee & He & Ke & Ce).
  exists e. rewrite K1, K2 in He. split; [|split; [exact He|split; [refine (keeps_trans _ d _ _ Ke); now split|congruence]]].
  cbn [SessionModel.run]. unfold render_file, andthen at 1, lift. rewrite B. unfold andthen at 1. unfold andthen at 1 in Ed. destruct (set_bounds P b c) as [c1 [[]|e1]]; [|discriminate].
  unfold andthen at 1. rewrite Ed. exact Ee.
Qed.
Definition renders (xs : list (source * bool)) : list (op source) := map (fun x => RenderFile source (fst x) (snd x) None) xs.
Definition drawn (g : geometry) (x : source * bool) (m : P -> Qc) : Prop := (exists b, box_of (fst x) = Ok b) /\ drawing g (snd x) false (fst x) = Ok m.
Lemma files_steps xs : forall ms c g l, shows c g l -> Forall2 (drawn g) xs ms ->
  exists c', run_all (renders xs) c = (c', map (fun _ => Ok []) xs) /\ shows c' g (fun p => l p ++ map (fun m : P -> Qc => (color_ P c, alpha P c * m p)) ms) /\ keeps c c'.
Proof.
  induction xs as [|[x i] xs IH]; intros ms c g l H F.
  - inversion F; subst. exists c. split; [reflexivity|]. split; [|(repeat split)]. destruct H as (im & t & n & S & O & Z & Sc & B & M). exists im, t, n. repeat (split; [assumption|]). intro p. cbn. rewrite app_nil_r. apply M.
  - inversion F as [|? m ? ms' [(b & B) D] F' E1 E2]; subst. destruct (file_step c g l x i b m H B D) as (d & Ed & Hd & (K1 & K2 & K3) & Cd).
    destruct (IH ms' d g _ Hd F') as (e & Ee & He & Ke). exists e. split.
    + cbn [renders map SessionModel.run_all]. cbn [fst snd]. rewrite Ed. unfold renders in Ee. rewrite Ee. reflexivity.
    + split; [|refine (keeps_trans _ d _ _ Ke); now split]. rewrite K1, K2 in He. destruct He as (im & t & n & S & O & Z & Sc & Bg & M). exists im, t, n. repeat (split; [assumption|]).
      intro p. specialize (M p). rewrite <- app_assoc in M. exact M.
Qed.
Lemma png_of c g l : shows c g l -> exists im, run (DumpStr source) c = (c, Ok [Png P None (pixels g) im]) /\ forall p, mixed (l p) (im p).
Proof. intros (im & t & n & S & O & Z & Sc & B & M). exists im. split; [|exact M]. cbn [SessionModel.run]. unfold dump_str, write_png, andthen, get. rewrite S. reflexivity. Qed.
Lemma run_all_app a : forall b c, run_all (a ++ b) c = (fst (run_all b (fst (run_all a c))), snd (run_all a c) ++ snd (run_all b (fst (run_all a c)))).
Proof.
  induction a as [|o a IH]; intros b c; cbn [app SessionModel.run_all]; [cbn [fst snd app]; now destruct (run_all b c)|]. destruct (run o c) as [d r]. rewrite IH.
  destruct (run_all a d) as [e rs]. cbn. reflexivity.
Qed.
(** All files are drawn in the box of the first. *)
Lemma files_stacked c x i b xs m ms : let g := geometry_of (scale P c) b in box_of x = Ok b -> drawing g i false x = Ok m -> Forall2 (drawn g) xs ms ->
  exists im, snd (run_all (Clear source :: renders ((x, i) :: xs) ++ [DumpStr source]) c) = Ok [] :: map (fun _ => Ok []) ((x, i) :: xs) ++ [Ok [Png P None (pixels g) im]] /\
    forall p, mixed ((background P c, 1) :: map (fun m : P -> Qc => (color_ P c, alpha P c * m p)) (m :: ms)) (im p).
Proof.
  intros g B D F. cbn [renders map app SessionModel.run_all]. cbn [fst snd]. unfold SessionModel.run at 1. unfold silent, clear, update, andthen, ret. cbn [fst snd].
  set (c0 := mkContext P _ _ _ _ _ _ _ _ _ _). destruct (file_first c0 x i b m eq_refl eq_refl eq_refl eq_refl B D) as (d & Ed & Hd & (K1 & K2 & K3) & Cd). rewrite Ed.
  destruct (files_steps xs ms d _ _ Hd F) as (e & Ee & He & Ke). destruct (png_of e _ _ He) as (im & Ep & M).
  pose proof (run_all_app (renders xs) [DumpStr source] d) as RA. unfold renders in RA, Ee. rewrite RA, Ee. cbn [fst snd SessionModel.run_all]. rewrite Ep. exists im. split; [reflexivity|].
  intro p. specialize (M p). rewrite K1, K2 in M. cbn [c0 background color_ alpha] in M. replace (1 * 1) with 1 in M by ring. exact M.
Qed.

(** ** Layers *)
Lemma layer_step c g l x s bg b m : shows c g l -> (count P c > 0)%nat -> drawing g (s_invert s) (s_mirror s) x = Ok m ->
  exists c', run (RenderLayer source x s bg b None) c = (c', Ok []) /\ shows c' g (fun p => l p ++ [(s_color s, s_alpha s * m p)]) /\ keeps c c' /\ (count P c' > 0)%nat.
Proof.
  intros H N D. assert (H1 : shows (counted P c) g l) by exact H. destruct (draw_layer_step _ g l x s m H1 D) as (d & Ed & Hd & Kd & Cd). exists d.
  split; [|split; [exact Hd|split; [exact Kd|rewrite Cd; cbn; auto with arith]]].
  cbn [SessionModel.run]. unfold render_layer, andthen at 1, get. destruct (count P c =? 0)%nat eqn:E; [apply Nat.eqb_eq in E; rewrite E in N; inversion N|].
  unfold andthen at 1, ret. unfold andthen at 1, update. unfold andthen. rewrite Ed. reflexivity.
Qed.
Definition chosen_box (x : source) (b : option box) : option box := match b with Some b => Some b | None => bounds_of x end.
Lemma layer_first c x s bg b b' m : count P c = 0%nat -> chosen_box x b = Some b' -> drawing (geometry_of (scale P c) b') (s_invert s) (s_mirror s) x = Ok m ->
  exists c', run (RenderLayer source x s bg b None) c = (c', Ok []) /\ shows c' (geometry_of (scale P c) b') (fun p => [(s_color bg, s_alpha bg * 1)] ++ [(s_color s, s_alpha s * m p)]) /\ keeps c c' /\ (count P c' > 0)%nat.
Proof.
  intros N B D. cbn [SessionModel.run]. unfold render_layer, andthen at 1, get. rewrite N. cbn [Nat.eqb].
  set (c0 := fst (clear P c)). destruct (new_bounds c0 b' (Some bg) eq_refl eq_refl eq_refl eq_refl) as (d & Ed & Kd & Cd & Hd).
  assert (H1 : shows (counted P d) (geometry_of (scale P c) b') (fun _ => [(s_color bg, s_alpha bg * 1)])) by exact Hd.
  destruct (draw_layer_step _ _ _ x s m H1 D) as (e & Ee & He & Ke & Ce). exists e. split; [|split; [exact He|split; [exact (keeps_trans c d e Kd Ke)|rewrite Ce; cbn; auto with arith]]].
  assert (Eb : (andthen P (clear P) (fun _ => andthen P (match b with Some b => set_bounds P b | None => match bounds_of x with Some b => set_bounds P b | None => raise P TypeError end end) (fun _ => paint_background P (Some bg)))) c = (d, Ok tt)).
  { unfold andthen at 1. change (clear P c) with (c0, Ok tt). cbn [fst snd]. unfold chosen_box in B. destruct b as [b|]; [injection B as ->; exact Ed|]. rewrite B. exact Ed. }
  unfold andthen at 1. rewrite Eb. unfold andthen at 1, update. unfold andthen. rewrite Ee. reflexivity.
Qed.
Definition drawn_layer (g : geometry) (x : source * settings) (m : P -> Qc) : Prop := drawing g (s_invert (snd x)) (s_mirror (snd x)) (fst x) = Ok m.
Lemma each_steps ls bg : forall ms c g l, shows c g l -> (count P c > 0)%nat -> Forall2 (drawn_layer g) ls ms ->
  exists c', render_each P source bounds_of drawing document ls bg c = (c', Ok tt) /\ shows c' g (fun p => l p ++ seen P (map snd ls) ms p) /\ keeps c c'.
Proof.
  induction ls as [|[x s] ls IH]; intros ms c g l H N F.
  - inversion F; subst. exists c. split; [reflexivity|]. split; [|(repeat split)]. destruct H as (im & t & n & S & O & Z & Sc & B & M). exists im, t, n. repeat (split; [assumption|]). intro p. unfold seen. cbn. rewrite app_nil_r. apply M.
  - inversion F as [|? m ? ms' D F' E1 E2]; subst. destruct (layer_step c g l x s bg None m H N D) as (d & Ed & Hd & Kd & Nd).
    destruct (IH ms' d g _ Hd Nd F') as (e & Ee & He & Ke). exists e. split.
    + cbn [render_each]. unfold andthen. cbn [SessionModel.run] in Ed. rewrite Ed. exact Ee.
    + split; [|exact (keeps_trans _ _ _ Kd Ke)]. destruct He as (im & t & n & S & O & Z & Sc & Bg & M). exists im, t, n. repeat (split; [assumption|]).
      intro p. specialize (M p). rewrite <- app_assoc in M. exact M.
Qed.
Lemma layers_stacked c x s b ls m ms bg f sc : let g := geometry_of sc b in is_svg f = false -> scale_for (x :: map fst ls) = Ok sc -> bounds_of x = Some b -> Forall2 (drawn_layer g) ((x, s) :: ls) (m :: ms) ->
  exists im, snd (run (RenderLayers source ((x, s) :: ls) bg f) c) = Ok [Png P (Some f) (pixels g) im] /\
    forall p, mixed ((s_color bg, s_alpha bg) :: seen P (s :: map snd ls) (m :: ms) p) (im p).
Proof.
  intros g Sv Es B F. rewrite (layers_wiped _ _ _ _ _ _ _ ((x, s) :: ls) bg f sc c Es). unfold andthen. cbn [render_each]. unfold andthen at 1.
  inversion F as [|? ? ? ? D F' E1 E2]; subst. destruct (layer_first (wiped P sc c) x s bg None b m eq_refl B D) as (d & Ed & Hd & Kd & Nd). cbn [SessionModel.run] in Ed. rewrite Ed.
  destruct (each_steps ls bg ms d _ _ Hd Nd F') as (e & Ee & (im & t & n & S & O & Z & Sc & Bg & M) & Ke). rewrite Ee. exists im.
  unfold dump. rewrite Sv. unfold write_png, andthen, get. rewrite S. split; [reflexivity|]. intro p. specialize (M p). replace (s_alpha bg * 1) with (s_alpha bg) in M by ring. exact M.
Qed.
(** One call for each layer comes to the same. *)
Definition layer_ops (ls : list (source * settings)) (bg : settings) : list (op source) := map (fun x => RenderLayer source (fst x) (snd x) bg None None) ls.
Lemma each_ops ls bg : forall c c', render_each P source bounds_of drawing document ls bg c = (c', Ok tt) -> run_all (layer_ops ls bg) c = (c', map (fun _ => Ok []) ls).
Proof.
  induction ls as [|[x s] ls IH]; intros c c' E; cbn [render_each] in E.
  - unfold ret in E. injection E as <-. reflexivity.
  - cbn [layer_ops map SessionModel.run_all]. cbn [fst snd]. unfold andthen at 1 in E. cbn [SessionModel.run].
    destruct (render_layer P source bounds_of drawing document x s bg None None c) as [d [o|e]] eqn:R; [|discriminate].
    unfold layer_ops in IH. rewrite (IH d c' E). f_equal. cbn [map]. f_equal.
    unfold render_layer, andthen at 1, get in R. unfold andthen at 1 in R. match type of R with context [match ?y with pair _ _ => _ end] => destruct y as [c1 [[]|e1]] end; [|discriminate].
    unfold andthen at 1, update in R. unfold andthen at 1 in R. destruct (draw_layer _ _ _ _ _ _) as [c2 [[]|e2]]; [|discriminate]. cbn in R. unfold ret in R. injection R as _ <-. reflexivity.
Qed.
Lemma one_by_one ls bg f o c sc : scale_for (map fst ls) = Ok sc -> scale P c = sc -> snd (run (RenderLayers source ls bg f) c) = Ok o ->
  snd (run_all (Clear source :: layer_ops ls bg ++ [Dump source f]) c) = Ok [] :: map (fun _ => Ok []) ls ++ [Ok o].
Proof.
  intros Es Ec R. rewrite (layers_wiped _ _ _ _ _ _ _ ls bg f sc c Es) in R. cbn [SessionModel.run_all]. unfold SessionModel.run at 1. unfold silent, andthen at 1, ret.
  assert (W : clear P c = (wiped P sc c, Ok tt)) by (unfold wiped, clear, update, set_scale; cbn; rewrite Ec; reflexivity). rewrite W. unfold andthen at 1 in R.
  destruct (render_each P source bounds_of drawing document ls bg (wiped P sc c)) as [d [[]|e]] eqn:E; [|discriminate].
  rewrite run_all_app, (each_ops ls bg _ _ E). cbn [fst snd SessionModel.run_all SessionModel.run]. destruct (dump P document f d) as [d' r]. cbn in *. now rewrite R.
Qed.
(** A layer after files: what was drawn is lost. *)
Lemma layer_new c x s bg b f : count P c = 0%nat -> run (RenderLayer source x s bg b f) c =
  andthen P (andthen P (match b with Some b => set_bounds P b | None => match bounds_of x with Some b => set_bounds P b | None => raise P TypeError end end) (fun _ => paint_background P (Some bg)))
    (fun _ => andthen P (update P (counted P)) (fun _ => andthen P (draw_layer P source drawing x s) (fun _ => dump_maybe P document f))) (fst (clear P c)).
Proof. intro N. cbn [SessionModel.run]. unfold render_layer, andthen at 1, get. rewrite N. reflexivity. Qed.
Lemma layer_alone c x s bg b f : count P c = 0%nat -> snd (run (RenderLayer source x s bg b f) c) = snd (run (RenderLayer source x s bg b f) (unused c)).
Proof.
  intro N. rewrite (layer_new c), (layer_new (unused c)) by (exact N || reflexivity).
  assert (E : alike P true (fst (clear P c)) (fst (clear P (unused c)))) by (unfold alike; cbn; repeat split). revert E. generalize (fst (clear P c)) (fst (clear P (unused c))). intros d d' E.
  refine (proj2 (same_then P true _ _ _ _ _ _ _ _ E)).
  - apply same_then; [|intros _; apply same_background; right; discriminate]. destruct b; [apply same_set_bounds|]. destruct (bounds_of x); [apply same_set_bounds|apply same_raise].
  - intros _. apply same_then; [apply same_update; unfold alike; cbn; intuition congruence|]. intros _. apply same_then; [exact (same_draw_layer P source bounds_of box_of drawing true x s)|]. intros _. apply same_dump_maybe.
Qed.
(** With the sides of the box in their order *)
Lemma distance_to a b : a <= b -> distance b a = b - a.
Proof. intro L. unfold distance. destruct (qclt_spec (b - a) 0) as [H|H]; [|reflexivity]. exfalso. qclra. Qed.
Lemma geometry_box s x0 x1 y0 y1 : x0 <= x1 -> y0 <= y1 -> geometry_of s ((x0, x1), (y0, y1)) = mkGeometry s (x0, y0) (x1 - x0, y1 - y0).
Proof. intros X Y. unfold geometry_of, box_origin, box_size. cbn [fst snd]. now rewrite !distance_to. Qed.
Lemma files_laid c x i x0 x1 y0 y1 xs m ms : let g := mkGeometry (scale P c) (x0, y0) (x1 - x0, y1 - y0) in x0 <= x1 -> y0 <= y1 ->
  box_of x = Ok ((x0, x1), (y0, y1)) -> drawing g i false x = Ok m -> Forall2 (drawn g) xs ms ->
  exists im, snd (run_all (Clear source :: renders ((x, i) :: xs) ++ [DumpStr source]) c) = Ok [] :: map (fun _ => Ok []) ((x, i) :: xs) ++ [Ok [Png P None (pixels g) im]] /\
    forall p, mixed ((background P c, 1) :: map (fun m : P -> Qc => (color_ P c, alpha P c * m p)) (m :: ms)) (im p).
Proof. intros g X Y. pose proof (files_stacked c x i ((x0, x1), (y0, y1)) xs m ms) as H. cbv zeta in H. rewrite (geometry_box _ _ _ _ _ X Y) in H. exact H. Qed.
Lemma layers_laid c x s x0 x1 y0 y1 ls m ms bg f sc : let g := mkGeometry sc (x0, y0) (x1 - x0, y1 - y0) in x0 <= x1 -> y0 <= y1 ->
  is_svg f = false -> scale_for (x :: map fst ls) = Ok sc -> bounds_of x = Some ((x0, x1), (y0, y1)) -> Forall2 (drawn_layer g) ((x, s) :: ls) (m :: ms) ->
  exists im, snd (run (RenderLayers source ((x, s) :: ls) bg f) c) = Ok [Png P (Some f) (pixels g) im] /\
    forall p, mixed ((s_color bg, s_alpha bg) :: seen P (s :: map snd ls) (m :: ms) p) (im p).
Proof. intros g X Y. pose proof (layers_stacked c x s ((x0, x1), (y0, y1)) ls m ms bg f sc) as H. cbv zeta in H. rewrite (geometry_box _ _ _ _ _ X Y) in H. exact H. Qed.
End Draw.
