(** Saving the images of a context, its settings, and starting over. *)
From Verif Require Import PyBase QcLib ThemeModel ThemeSpec ThemeProofs SessionModel SessionSpec SessionProofs SessionDraw.
Open Scope list_scope.
Open Scope Qc_scope.

Section Dump.
Variable P : Type.
Variable source : Type.
Variable bounds_of : source -> option box.
Variable box_of : source -> res box.
Variable drawing : geometry -> bool -> bool -> source -> res (P -> Qc).
Variable scale_for : list source -> res Qc.
Variable document : point -> picture P -> text.
Notation context := (context P).
Notation action := (action P).
Notation run := (run P source bounds_of box_of drawing scale_for document).
Notation run_all := (run_all P source bounds_of box_of drawing scale_for document).

(** ** Starting over *)
Lemma start_over l c : snd (run_all (Clear source :: l) c) = Ok [] :: snd (run_all l (unused c)).
Proof.
  cbn [SessionModel.run_all]. unfold SessionModel.run at 1. unfold silent, andthen, ret. cbn [clear update].
  match goal with |- snd (let (_, _) := run_all l ?d in _) = _ => assert (E : alike P true d (unused c)) by (unfold alike; cbn; repeat split); pose proof (proj2 (same_run_all P source bounds_of box_of drawing scale_for document true l eq_refl _ _ E)) as H; destruct (run_all l d) end.
  cbn in *. now rewrite H.
Qed.

(** ** Invariants: anything true at first and kept by each piece *)
Section Invariant.
Variable I : context -> Prop.
Definition inv {A} (m : action A) : Prop := forall c, I c -> I (fst (m c)).
Lemma inv_ret A (a : A) : inv (ret P a). Proof. now intros c H. Qed.
Lemma inv_raise A e : inv (A := A) (raise P e). Proof. now intros c H. Qed.
Lemma inv_lift A (r : res A) : inv (lift P r). Proof. now intros c H. Qed.
Lemma inv_get A (f : context -> A) : inv (get P f). Proof. now intros c H. Qed.
Lemma inv_then A B (m : action A) (f : A -> action B) : inv m -> (forall a, inv (f a)) -> inv (andthen P m f).
Proof. intros M F c H. unfold andthen. pose proof (M c H) as X. destruct (m c) as [d [a|e]]; [exact (F a d X)|exact X]. Qed.
Hypothesis IBounds : forall b, inv (set_bounds P b).
Hypothesis IPaint : forall k a m, inv (paint P k a m).
Hypothesis IBg : forall b, inv (update P (set_has_bg P b)).
Hypothesis IInvert : forall b, inv (set_invert P b).
Hypothesis IClear : inv (clear P).
Hypothesis ICounted : inv (update P (counted P)).
Hypothesis IScale : forall s, inv (update P (set_scale P s)).
Hypothesis IDump : forall f, inv (dump P document f).
Hypothesis ISvg : inv (dump_svg_str P document).
Hypothesis IColor : forall l, inv (set_color P l).
Hypothesis IBackground : forall l, inv (set_background P l).
Hypothesis IAlpha : forall a, inv (set_alpha P a).
Ltac step := first [apply IBounds|apply IPaint|apply IBg|apply IInvert|apply IClear|apply ICounted|apply IScale|apply IDump|apply ISvg|apply IColor|apply IBackground|apply IAlpha|apply inv_ret|apply inv_raise|apply inv_lift|apply inv_get|match goal with |- inv (andthen _ _ _) => apply inv_then; [|intro] end].
Lemma inv_background s : inv (paint_background P s).
Proof. unfold paint_background. repeat step. match goal with |- inv (if ?b then _ else _) => destruct b end; repeat step. Qed.
Lemma inv_png f : inv (write_png P f).
Proof. unfold write_png. repeat step. destruct a as [s|]; [destruct (sf_finished P s)|]; repeat step. Qed.
Lemma inv_draw mir x : inv (draw P source drawing mir x).
Proof. unfold draw. repeat step. destruct a as [|], a0 as [|]; repeat step. Qed.
Lemma inv_maybe f : inv (dump_maybe P document f).
Proof. destruct f; unfold dump_maybe; repeat step. Qed.
Lemma inv_layer x s bg b f : inv (render_layer P source bounds_of drawing document x s bg b f).
Proof.
  unfold render_layer, draw_layer. repeat first [step|apply inv_draw|apply inv_maybe].
  destruct (a =? 0)%nat; repeat first [step|apply inv_background]. destruct b; [|destruct (bounds_of x)]; repeat step.
Qed.
Lemma inv_each ls bg : inv (render_each P source bounds_of drawing document ls bg).
Proof. induction ls as [|[x s] ls IH]; cbn [render_each]; repeat first [step|apply inv_layer|exact IH]. Qed.
Lemma inv_run o : inv (run o).
Proof.
  destruct o; cbn [SessionModel.run]; unfold silent, render_layers, render_file; repeat first [step|apply inv_layer|apply inv_each|apply inv_background|apply inv_draw|apply inv_maybe|apply inv_png].
Qed.
Lemma inv_run_all l : forall c, I c -> I (fst (run_all l c)).
Proof.
  induction l as [|o l IH]; intros c H; cbn [SessionModel.run_all]; [exact H|]. pose proof (inv_run o c H) as X. destruct (run o c) as [d r]. cbn in X. pose proof (IH d X) as Y. destruct (run_all l d). exact Y.
Qed.
End Invariant.

(** ** Settings *)
Lemma check_good l k : check_color l = Ok k -> three l k /\ good_color k.
Proof.
  unfold check_color. destruct l as [|r [|g [|b [|]]]]; try discriminate. cbn [existsb].
  destruct (qclt_spec r 0) as [|A1], (qclt_spec 1 r) as [|A2], (qclt_spec g 0) as [|A3], (qclt_spec 1 g) as [|A4], (qclt_spec b 0) as [|A5], (qclt_spec 1 b) as [|A6]; cbn; try discriminate.
  intro E. injection E as <-. split; [reflexivity|]. unfold good_color, between01, red, green, blue. cbn. repeat split; now apply Qcnot_lt_le.
Qed.
Lemma good_check l k : three l k -> good_color k -> check_color l = Ok k.
Proof.
  intros -> (A & B & C). destruct k as [[r g] b]. unfold red, green, blue in *. cbn [fst snd check_color existsb] in *.
  assert (X : forall q, between01 q -> (qclt q 0 || qclt 1 q)%bool = false).
  { intros q [Q1 Q2]. destruct (qclt_spec q 0) as [H|_]; [apply Qcle_not_lt in Q1; contradiction|]. destruct (qclt_spec 1 q) as [H|_]; [apply Qcle_not_lt in Q2; contradiction|]. reflexivity. }
  rewrite !X by assumption. reflexivity.
Qed.
Lemma bad_check l k : three l k -> ~ good_color k -> check_color l = Err ValueError.
Proof.
  intros E N. destruct (check_color l) as [q|e] eqn:C.
  - apply check_good in C. destruct C as [C1 C2]. unfold three in *. rewrite E in C1. destruct k as [[r g] b], q as [[r' g'] b']. unfold red, green, blue in C1. cbn in C1. injection C1 as -> -> ->. contradiction.
  - rewrite E in C. cbn in C. destruct (_ || _)%bool; [now injection C as <-|discriminate].
Qed.
Lemma length_check l : List.length l <> 3%nat -> check_color l = Err TypeError.
Proof. destruct l as [|r [|g [|b [|]]]]; try reflexivity. intro N. now destruct N. Qed.
Lemma color_set l c : (forall k, three l k -> good_color k -> exists c', run (SetColor source l) c = (c', Ok []) /\ color_ P c' = k /\ alpha P c' = alpha P c /\ background P c' = background P c /\ same_canvas c c') /\
  (forall k, three l k -> ~ good_color k -> run (SetColor source l) c = (c, Err ValueError)) /\
  (List.length l <> 3%nat -> run (SetColor source l) c = (c, Err TypeError)).
Proof.
  cbn [SessionModel.run]. unfold silent, set_color, andthen, lift. split; [|split].
  - intros k T G. rewrite (good_check l k T G). eexists. split; [reflexivity|repeat split].
  - intros k T N. rewrite (bad_check l k T N). reflexivity.
  - intro N. rewrite (length_check l N). reflexivity.
Qed.
Lemma background_set l c : (forall k, three l k -> good_color k -> exists c', run (SetBackground source l) c = (c', Ok []) /\ background P c' = k /\ color_ P c' = color_ P c /\ alpha P c' = alpha P c /\ same_canvas c c') /\
  (forall k, three l k -> ~ good_color k -> run (SetBackground source l) c = (c, Err ValueError)) /\
  (List.length l <> 3%nat -> run (SetBackground source l) c = (c, Err TypeError)).
Proof.
  cbn [SessionModel.run]. unfold silent, set_background, andthen, lift. split; [|split].
  - intros k T G. rewrite (good_check l k T G). eexists. split; [reflexivity|repeat split].
  - intros k T N. rewrite (bad_check l k T N). reflexivity.
  - intro N. rewrite (length_check l N). reflexivity.
Qed.
Lemma alpha_good a : (qclt a 0 || qclt 1 a)%bool = false <-> between01 a.
Proof.
  unfold between01. destruct (qclt_spec a 0) as [H|H], (qclt_spec 1 a) as [K|K]; cbn; split; try discriminate; intros X; try (destruct X as (X1 & X2)).
  - exfalso. exact (Qclt_not_le _ _ H X1).
  - exfalso. exact (Qclt_not_le _ _ H X1).
  - exfalso. exact (Qclt_not_le _ _ K X2).
  - split; now apply Qcnot_lt_le.
  - reflexivity.
Qed.
Lemma alpha_set a c : (between01 a -> exists c', run (SetAlpha source a) c = (c', Ok []) /\ alpha P c' = a /\ color_ P c' = color_ P c /\ background P c' = background P c /\ same_canvas c c') /\ (~ between01 a -> run (SetAlpha source a) c = (c, Err ValueError)).
Proof.
  cbn [SessionModel.run]. unfold silent, set_alpha, andthen. pose proof (alpha_good a) as H. destruct (qclt a 0 || qclt 1 a)%bool; split; intro B.
  - apply H in B. discriminate.
  - reflexivity.
  - eexists. split; [reflexivity|repeat split].
  - exfalso. apply B. now apply H.
Qed.
Lemma always_settled l c : settled c -> settled (fst (run_all l c)).
Proof.
  apply inv_run_all; unfold inv; clear c.
  - intros b c H. exact H.
  - intros k a m c H. unfold paint, andthen, get. destruct (surf P c) as [s|]; [|exact H]. destruct (sf_finished P s); exact H.
  - intros b c H. exact H.
  - intros b c H. exact H.
  - intros c H. exact H.
  - intros c H. exact H.
  - intros s c H. exact H.
  - intros f c H. unfold dump, write_png. destruct (is_svg f); unfold andthen, get; (destruct (surf P c) as [s|]; [|exact H]); [exact H|]. destruct (sf_finished P s); exact H.
  - intros c H. unfold dump_svg_str, andthen, get. destruct (surf P c); exact H.
  - intros k c (A & B & C). unfold set_color, andthen, lift. destruct (check_color k) as [q|e] eqn:E; [|now split]. apply check_good in E. split; [exact (proj2 E)|now split].
  - intros k c (A & B & C). unfold set_background, andthen, lift. destruct (check_color k) as [q|e] eqn:E; [|now split]. apply check_good in E. split; [exact A|]. split; [exact (proj2 E)|exact C].
  - intros a c (A & B & C). unfold set_alpha. pose proof (alpha_good a) as X. destruct (qclt a 0 || qclt 1 a)%bool; [now split|]. split; [exact A|]. split; [exact B|]. now apply X.
Qed.
Lemma new_settled s : settled (new_context P s).
Proof. unfold settled, good_color, between01, red, green, blue, mil. cbn. repeat split; unfold Qcle; cbn; now apply Qle_bool_iff. Qed.

(** ** Saving *)
Definition saved (c : context) : Prop := match surf P c with
  | None => True
  | Some s => if sf_finished P s then sf_text P s = document (sf_size P s) (sf_picture P s) /\ sf_position P s = List.length (sf_text P s) else sf_text P s = []
  end.
Lemma finished_saved s : (if sf_finished P s then sf_text P s = document (sf_size P s) (sf_picture P s) /\ sf_position P s = List.length (sf_text P s) else sf_text P s = []) ->
  sf_finished P (finished P document s) = true /\ sf_size P (finished P document s) = sf_size P s /\ sf_picture P (finished P document s) = sf_picture P s /\
  sf_text P (finished P document s) = document (sf_size P s) (sf_picture P s) /\ sf_position P (finished P document s) = List.length (sf_text P (finished P document s)).
Proof. unfold finished. destruct s as [z im d t n]. cbn. destruct d; intro H; [cbn; tauto|]. subst t. cbn. repeat split. Qed.
Lemma always_saved l c : saved c -> saved (fst (run_all l c)).
Proof.
  apply inv_run_all; unfold inv; clear c.
  - intros b c H. unfold saved, set_bounds, update in *. cbn. destruct (surf P c) as [s|]; [exact H|reflexivity].
  - intros k a m c H. unfold paint, andthen, get. unfold saved in H. destruct (surf P c) as [s|] eqn:E; [|unfold raise; cbn; unfold saved; now rewrite E]. destruct (sf_finished P s) eqn:F; [unfold raise; cbn; unfold saved; rewrite E, F; exact H|]. cbn. exact H.
  - intros b c H. exact H.
  - intros b c H. exact H.
  - intros c H. exact Logic.I.
  - intros c H. exact H.
  - intros s c H. exact H.
  - intros f c H. unfold dump, write_png. destruct (is_svg f); unfold andthen, get.
    + pose proof H as H'. unfold saved in H'. destruct (surf P c) as [s|]; [|exact H]. cbn. unfold saved. cbn. destruct (finished_saved s H') as (_ & -> & -> & -> & _). now split.
    + destruct (surf P c) as [s|]; [|exact H]. destruct (sf_finished P s); exact H.
  - intros c H. unfold dump_svg_str, andthen, get. pose proof H as H'. unfold saved in H'. destruct (surf P c) as [s|]; [|exact H]. cbn. unfold saved. cbn. destruct (finished_saved s H') as (_ & -> & -> & -> & _). now split.
  - intros k c H. unfold set_color, andthen, lift. destruct (check_color k); exact H.
  - intros k c H. unfold set_background, andthen, lift. destruct (check_color k); exact H.
  - intros a c H. unfold set_alpha. destruct (qclt a 0 || qclt 1 a)%bool; exact H.
Qed.
Lemma reached s l : saved (fst (run_all l (new_context P s))).
Proof. apply always_saved. exact Logic.I. Qed.
Lemma png_harmless f c : is_svg f = false -> fst (run (Dump source f) c) = c.
Proof. intro S. cbn [SessionModel.run]. unfold dump. rewrite S. unfold write_png, andthen, get. destruct (surf P c) as [s|]; [|reflexivity]. now destruct (sf_finished P s). Qed.
Lemma str_harmless c : fst (run (DumpStr source) c) = c.
Proof. cbn [SessionModel.run]. unfold dump_str, write_png, andthen, get. destruct (surf P c) as [s|]; [|reflexivity]. now destruct (sf_finished P s). Qed.
Lemma png_same f c : is_svg f = false -> snd (run (Dump source f) c) = match snd (run (DumpStr source) c) with Ok [Png _ _ z im] => Ok [Png P (Some f) z im] | r => r end.
Proof. intro S. cbn [SessionModel.run]. unfold dump, dump_str. rewrite S. unfold write_png, andthen, get. destruct (surf P c) as [s|]; [|reflexivity]. now destruct (sf_finished P s). Qed.
Lemma svg_same s l f z im : let c := fst (run_all l (new_context P s)) in is_svg f = true -> snd (run (DumpStr source) c) = Ok [Png P None z im] ->
  snd (run (Dump source f) c) = Ok [Svg P (Some f) (document z im)].
Proof.
  intros c S. pose proof (reached s l) as R. fold c in R. clearbody c. cbn [SessionModel.run]. unfold dump, dump_str, write_png, andthen, get. rewrite S. unfold saved in R.
  destruct (surf P c) as [u|]; [|discriminate]. destruct (finished_saved u R) as (_ & _ & _ & -> & _). destruct (sf_finished P u); [discriminate|]. cbn. intro E. injection E as -> ->. reflexivity.
Qed.
Definition closed (c : context) : Prop := exists s, surf P c = Some s /\ sf_finished P s = true.
Lemma svg_closes f c o : is_svg f = true -> snd (run (Dump source f) c) = Ok o -> closed (fst (run (Dump source f) c)).
Proof.
  intro S. cbn [SessionModel.run]. unfold dump. rewrite S. unfold andthen, get. destruct (surf P c) as [s|]; [|discriminate]. intros _. cbn. eexists. split; reflexivity.
Qed.
Lemma closed_png c : closed c -> snd (run (DumpStr source) c) = Err GenericException.
Proof. intros (s & E & F). cbn [SessionModel.run]. unfold dump_str, write_png, andthen, get. now rewrite E, F. Qed.
Lemma closed_paint c k a m : closed c -> paint P k a m c = (c, Err GenericException).
Proof. intros (s & E & F). unfold paint, andthen, get. now rewrite E, F. Qed.
Lemma closed_background c s : closed c -> exists c' r, paint_background P s c = (c', r) /\ closed c'.
Proof.
  intro H. unfold paint_background, andthen, get. destruct (has_bg P c); [eexists _, _; split; [reflexivity|exact H]|]. cbn [update].
  assert (H' : closed (set_has_bg P true c)) by exact H. rewrite (closed_paint _ _ _ _ H'). eexists _, _. split; [reflexivity|exact H'].
Qed.
Lemma closed_file c x i f o : closed c -> snd (run (RenderFile source x i f) c) <> Ok o.
Proof.
  intro H. cbn [SessionModel.run]. unfold render_file, andthen at 1, lift. destruct (box_of x) as [b|e]; [|discriminate].
  unfold andthen at 1. set (c1 := fst (set_bounds P b c)). change (set_bounds P b c) with (c1, Ok tt).
  assert (H1 : closed c1). { destruct H as (s & E & F). exists s. unfold c1, set_bounds, update. cbn. rewrite E. now split. } cbv iota beta.
  unfold andthen at 1. destruct (closed_background c1 None H1) as (c2 & r & -> & H2). destruct r as [[]|e]; [|discriminate].
  unfold andthen at 1. set (c3 := fst (set_invert P i c2)). change (set_invert P i c2) with (c3, Ok tt). assert (H3 : closed c3) by exact H2. cbv iota beta.
  unfold andthen at 1. assert (D : exists r, draw P source drawing false x c3 = (c3, r)).
  { unfold draw, andthen, get. destruct (origin P c3); [|eexists; reflexivity]. destruct (size P c3); eexists; reflexivity. }
  destruct D as (r & ->). destruct r as [m|e]; [|discriminate]. unfold andthen, get. rewrite (closed_paint _ _ _ _ H3). discriminate.
Qed.
Lemma layer_run c x s bg b f : exists c1 (r : res unit), run (RenderLayer source x s bg b f) c =
  match r with Ok _ => andthen P (draw_layer P source drawing x s) (fun _ => dump_maybe P document f) (counted P c1) | Err e => (c1, Err e) end.
Proof.
  cbn [SessionModel.run]. unfold render_layer. unfold andthen at 1. unfold get at 1. unfold andthen at 1.
  match goal with |- context [let (_, _) := ?y in _] => destruct y as [c1 [u|e]] end.
  - exists c1, (Ok tt). reflexivity.
  - exists c1, (Err e). reflexivity.
Qed.
Lemma layer_count c x s bg b f o : snd (run (RenderLayer source x s bg b f) c) = Ok o -> (count P (fst (run (RenderLayer source x s bg b f) c)) > 0)%nat.
Proof.
  destruct (layer_run c x s bg b f) as (c1 & [u|e] & ->); [|discriminate]. intros _.
  set (c2 := counted P c1). assert (N : (count P c2 > 0)%nat) by (cbn; auto with arith). clearbody c2.
  assert (Q : forall B (m : action B), inv (fun c => (count P c > 0)%nat) m -> (count P (fst (m c2)) > 0)%nat) by (intros B m I; apply I, N).
  apply Q. apply inv_then; [unfold draw_layer; apply inv_then; [intros d H; exact H|]; intros _; apply inv_then|].
  - intros d H. unfold draw, andthen, get. destruct (origin P d); [|exact H]. destruct (size P d); exact H.
  - intros m d H. unfold paint, andthen, get. destruct (surf P d) as [v|]; [|exact H]. destruct (sf_finished P v); exact H.
  - intros _ d H. destruct f as [f|]; [|exact H]. unfold dump_maybe, dump, write_png, andthen, get. destruct (is_svg f); (destruct (surf P d) as [v|]; [|exact H]); [exact H|]. destruct (sf_finished P v); exact H.
Qed.
Lemma layer_svg_closes c x s bg b f o : is_svg f = true -> snd (run (RenderLayer source x s bg b (Some f)) c) = Ok o -> closed (fst (run (RenderLayer source x s bg b (Some f)) c)).
Proof.
  intros S. destruct (layer_run c x s bg b (Some f)) as (c1 & [u|e] & ->); [|discriminate].
  unfold andthen at 1 2. destruct (draw_layer _ _ _ _ _ _) as [c2 [v|e2]]; [|discriminate]. exact (svg_closes f c2 o S).
Qed.
Lemma closed_layer c x s bg b f o : closed c -> (count P c > 0)%nat -> snd (run (RenderLayer source x s bg b f) c) <> Ok o.
Proof.
  intros H N. cbn [SessionModel.run]. unfold render_layer, andthen at 1, get. destruct (count P c =? 0)%nat eqn:E; [apply Nat.eqb_eq in E; rewrite E in N; inversion N|].
  unfold andthen at 1, ret. unfold andthen at 1, update. set (c1 := counted P c). assert (H1 : closed c1) by exact H. cbv iota beta. unfold andthen at 1, draw_layer. unfold andthen at 1.
  set (c2 := fst (set_invert P (s_invert s) c1)). change (set_invert P (s_invert s) c1) with (c2, Ok tt). assert (H2 : closed c2) by exact H1. cbv iota beta.
  unfold andthen at 1. assert (D : exists r, draw P source drawing (s_mirror s) x c2 = (c2, r)).
  { unfold draw, andthen, get. destruct (origin P c2); [|eexists; reflexivity]. destruct (size P c2); eexists; reflexivity. }
  destruct D as (r & ->). destruct r as [m|e]; [|discriminate]. rewrite (closed_paint _ _ _ _ H2). discriminate.
Qed.
Lemma layers_in_svgs c x s bg b f o x' s' bg' b' f' o' : is_svg f = true -> snd (run (RenderLayer source x s bg b (Some f)) c) = Ok o ->
  snd (run (RenderLayer source x' s' bg' b' f') (fst (run (RenderLayer source x s bg b (Some f)) c))) <> Ok o'.
Proof.
  intros S R. apply closed_layer; [exact (layer_svg_closes c x s bg b f o S R)|]. exact (layer_count c x s bg b (Some f) o R).
Qed.
Lemma svg_str_empty s l t : snd (run (DumpSvgStr source) (fst (run_all l (new_context P s)))) = Ok [Svg P None t] -> t = [].
Proof.
  pose proof (reached s l) as R. generalize dependent (fst (run_all l (new_context P s))). intros c R. cbn [SessionModel.run]. unfold dump_svg_str, andthen, get. unfold saved in R.
  destruct (surf P c) as [u|]; [|discriminate]. destruct (finished_saved u R) as (_ & _ & _ & _ & N). cbn. rewrite N. intro E. injection E as <-. apply skipn_all.
Qed.
Lemma svg_again f g c o : is_svg f = true -> is_svg g = true -> snd (run (Dump source f) c) = Ok o ->
  exists t, o = [Svg P (Some f) t] /\ snd (run (Dump source g) (fst (run (Dump source f) c))) = Ok [Svg P (Some g) t].
Proof.
  intros S S'. cbn [SessionModel.run]. unfold dump. rewrite S, S'. unfold andthen, get. destruct (surf P c) as [s|]; [|discriminate]. cbn. intro E. injection E as <-. eexists. split; reflexivity.
Qed.
End Dump.
