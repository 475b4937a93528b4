(** Layers which are strips, for examples of sessions. *)
From Verif Require Import PyBase QcLib ThemeModel ThemeSpec ThemeProofs SessionModel SessionSpec SessionProofs SessionDraw SessionDump.
Open Scope list_scope.
Open Scope Qc_scope.

Section Adds.
Variable P : Type.
Variable source : Type.
Variable bounds_of : source -> option box.
Variable box_of : source -> res box.
Variable drawing : geometry -> bool -> bool -> source -> res (P -> Qc).
Variable scale_for : list source -> res Qc.
Variable document : point -> picture P -> text.
Notation run := (run P source bounds_of box_of drawing scale_for document).
Lemma layer_adds c x s bg b z im : (count P c > 0)%nat -> snd (run (DumpStr source) c) = Ok [Png P None z im] -> snd (run (RenderLayer source x s bg b None) c) = Ok [] ->
  exists m im', snd (run (DumpStr source) (fst (run (RenderLayer source x s bg b None) c))) = Ok [Png P None z im'] /\ forall p, im' p = over (s_color s) (s_alpha s * m p) (im p).
Proof.
  intro N. cbn [SessionModel.run]. unfold dump_str, write_png. unfold andthen at 1, get at 1. destruct (surf P c) as [u|] eqn:Eu; [|discriminate]. destruct (sf_finished P u) eqn:Ef; [discriminate|].
  unfold ret at 1. cbn [snd]. intro E. injection E as E1 E2. assert (R : (count P c =? 0)%nat = false) by (destruct (count P c); [inversion N|reflexivity]).
  unfold render_layer, draw_layer, draw, paint, dump_maybe, andthen, get, update, ret, set_invert, counted, raise, lift. rewrite R. cbn [fst snd origin size scale inverted surf].
  destruct (origin P c) as [o|]; [|discriminate]. destruct (size P c) as [w|]; [|discriminate]. cbn. match goal with |- context [drawing ?g ?i ?j ?y] => destruct (drawing g i j y) as [m|e] end; [|discriminate]. cbn. rewrite Eu. cbn. rewrite Ef. cbn. intros _.
  exists m, (fun p => over (s_color s) (s_alpha s * m p) (im p)). rewrite E1, E2. split; reflexivity.
Qed.
End Adds.

(** A strip from [fst x] to [snd x], one high; pixels are counted from the left. *)
Definition strip : Type := (Qc * Qc)%type.
Definition strip_box (x : strip) : box := (x, (0, 1)).
Definition strip_drawing (g : geometry) (invert mirror : bool) (x : strip) : res (Qc -> Qc) :=
  Ok (fun p => let q := p / g_scale g + fst (g_origin g) in if (qcle (fst x) q && qcle q (snd x))%bool then (if invert then 0 else 1) else if invert then 1 else 0).
Definition strip_scale (l : list strip) : res Qc := Ok (zq 10).
Definition strip_document (z : point) (im : picture Qc) : text := T "<svg></svg>".
Notation strip_run := (SessionModel.run Qc strip (fun x => Some (strip_box x)) (fun x => Ok (strip_box x)) strip_drawing strip_scale strip_document).
Notation strips := (SessionModel.run_all Qc strip (fun x => Some (strip_box x)) (fun x => Ok (strip_box x)) strip_drawing strip_scale strip_document).
Definition narrow : strip := (0, 1).
Definition wide : strip := (zq 5, zq 7).
Definition copper : settings := mkSettings (1, 0, 0) 1 false false.
Definition board : settings := mkSettings (0, 1, 0) 1 false false.
