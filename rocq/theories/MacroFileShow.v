(** The image of a file with aperture macros that is written and read again. *)
From Verif Require Import PyBase QcLib MacroModel AmModel AmRenderSpec GeomModel GeomSpec CairoModel MacroGeomModel ShowModel CamShowModel DrillShowModel.
From Verif Require Import NumModel GerberText GerberTextSpec MacroFileModel MacroFileSpec MacroFileProofs.
From Verif Require GerberEval GerberEvalSpec.
Import ListNotations GerberEvalSpec.
Open Scope list_scope.

Lemma fetch_none h h' l : Forall2 same_obj h h' -> GerberEval.fetch h l = None -> GerberEval.fetch h' l = None.
Proof. intros F E. unfold GerberEval.fetch in *. apply nth_error_None in E. rewrite <- (same_length _ _ F) in E. now apply nth_error_None. Qed.
Lemma flash_same o o' : same_obj o o' -> view_flash o' = view_flash o.
Proof.
  intros ([S|(l & k & ps & S1 & S2 & P1 & P2)] & Ep & El & _); unfold view_flash; rewrite <- Ep, <- El.
  - now rewrite <- S.
  - rewrite S1, S2. destruct (GerberEval.o_pos o) as [p|]; [|reflexivity]. unfold view_macro. fold (primitives_of l). fold (primitives_of k). now rewrite P1, P2.
Qed.
Lemma line_same dark a b o o' : same_obj o o' -> view_line dark a b o' = view_line dark a b o.
Proof. intros ([S|(l & k & ps & S1 & S2 & _)] & _); unfold view_line; [now rewrite <- S|now rewrite S1, S2]. Qed.
Lemma arc_same dark a o o' : same_obj o o' -> view_arc dark a o' = view_arc dark a o.
Proof. intros ([S|(l & k & ps & S1 & S2 & _)] & _); unfold view_arc; [now rewrite <- S|now rewrite S1, S2]. Qed.
Lemma view_same h h' p : Forall2 same_obj h h' -> view h' p = view h p.
Proof.
  intros F.
  assert (X : forall (A : Type) (f : GerberEval.obj -> res A) e l, (forall o o', same_obj o o' -> f o' = f o) ->
    (match GerberEval.fetch h' l with Some o => f o | None => e end) = (match GerberEval.fetch h l with Some o => f o | None => e end)).
  { intros A f e l H. destruct (GerberEval.fetch h l) as [o|] eqn:E; [destruct (fetch_same _ _ _ _ F E) as (o' & -> & S); now apply H|now rewrite (fetch_none _ _ _ F E)]. }
  destruct p as [[a b [ap|] pol u|a b [c|] d [ap|] q pol u]|l pol u|l]; cbn [view]; try reflexivity; apply X; intros o o' S.
  - now apply line_same.
  - now apply arc_same.
  - now apply flash_same.
Qed.
Lemma prim_box_same h h' p : Forall2 same_obj h h' -> prim_box h' p = prim_box h p.
Proof.
  intros F. pose proof (view_same h h' p F) as V.
  destruct p as [[a b [ap|] pol u|a b c d ap q pol u]|l pol u|l]; unfold prim_box; rewrite ?V; try reflexivity.
  destruct (GerberEval.fetch h ap) as [o|] eqn:E; [destruct (fetch_same _ _ _ _ F E) as (o' & -> & S)|now rewrite (fetch_none _ _ _ F E)].
  destruct S as ([S|(l & k & ps & S1 & S2 & _)] & _); destruct o as [sh po pl un], o' as [sh' po' pl' un']; cbn in *; subst; reflexivity.
Qed.
Lemma mapM_ext {A B} (f g : A -> res B) l : (forall x, f x = g x) -> mapM f l = mapM g l.
Proof. intros E. induction l as [|x l IH]; [reflexivity|]. cbn [mapM]. now rewrite E, IH. Qed.
Lemma render_same fill s inv h h' l : Forall2 same_obj h h' -> render_prims fill s inv h' l = render_prims fill s inv h l.
Proof.
  intros F. unfold render_prims, whole_context. rewrite (mapM_ext (prim_box h') (prim_box h)) by (intros; now apply prim_box_same).
  now rewrite (mapM_ext (view h') (view h)) by (intros; now apply view_same).
Qed.
Lemma rewritten_image fill fc s inv fs data l st ms : parse_text fs data = Ok (l, st) -> announceable st -> Forall (rest_writable st) l ->
  format_before_coords l -> definitions_ok [] l -> image fc [] l = Some ms -> one_shape_each l ->
  exists t, rewritten fc fs data = Ok t /\ forall fs', show_text fill fc s inv fs' t = show_text fill fc s inv fs data.
Proof.
  intros P An W Fb De Im O. destruct (rewritten_lemma fc fs data l st ms P An W Fb De Im O) as (g & k & t & l' & E & R & Pa & h & m & k' & E' & F).
  exists t. split; [exact R|]. intros fs'. destruct (Pa fs') as [st' P']. unfold show_text. rewrite P, P'. cbn [bind fst]. unfold render_whole. rewrite E, E'. cbn [bind fst].
  cbn [swap GerberEval.with_store GerberEval.with_macros GerberEval.g_store GerberEval.g_prims]. now apply render_same.
Qed.
