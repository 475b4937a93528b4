(** Files whose images are wrong, and files whose images are right. *)
From Coq Require Import Lra Lia Qreals.
From Verif Require Import PyBase QcLib GeomModel GeomSpec GeomProofs HullModel HullSpec HullProofs CairoModel CairoSpec CairoProofs CairoLayer CairoMore CairoScale FloatCodec MacroModel AmModel AmSpec MacroGeomModel MacroGeomSpec MacroGeomProofs ShowModel ShowSpec ShowMacro ShowProofs ShowFile.
From Verif Require Import GerberText.
From Verif Require GerberEval GerberEvalSpec GerberEvalProofs.
Import ListNotations GerberEvalSpec.
Open Scope R_scope.
Open Scope list_scope.

Lemma real_zq z : real (zq z) = IZR z.
Proof. unfold real, zq. transitivity (Q2R (inject_Z z)); [apply Qeq_eqR; cbn [this Q2Qc]; apply Qred_correct|]. unfold Q2R, inject_Z. cbn [Qnum Qden]. field. Qed.

Lemma piece_only fill m x : piece fill m x -> ~ macro_stamp m -> x = covers fill m.
Proof. destruct m as [| |[[] [] pol u]]; cbn; try auto. intros _ []. exact I. Qed.

(** ** The polarity of macros *)
(** The same marks, except for the polarity of macros. *)
Definition penned (m : mark) : Prop := match m with Stroke (VLine _ _ o _ _) | Stroke (VArc _ _ _ _ o _ _ _) => o <> None | _ => True end.
Definition alike (m m' : mark) : Prop :=
  (m = m' /\ penned m) \/ exists ps c pol pol' u u', m = Stamp (GerberEval.mkObj (GerberEval.ShMacro ps) c pol u) /\ m' = Stamp (GerberEval.mkObj (GerberEval.ShMacro ps) c pol' u').
Definition look_seg (v : vseg) : res seg :=
  match v with VLine a b _ _ _ => Ok (SLine (real_pt a) (real_pt b)) | VArc a b (Some c) d _ q _ _ => Ok (SArc (arc_of a b c d q)) | VArc _ _ None _ _ _ _ _ => Err TypeError end.
Definition look (m : mark) : res item :=
  match m with
  | Stroke (VLine a b (Some o) pol _) => view_line (is_dark pol) (real_pt a) (real_pt b) o
  | Stroke (VArc a b (Some c) d (Some o) q pol _) => view_arc (is_dark pol) (arc_of a b c d q) o
  | Stroke (VArc _ _ None _ _ _ _ _) => Err TypeError
  | Stroke _ => Err NotImplementedError
  | Fill l pol _ => do segs <- mapM look_seg l; match boxes_box (map seg_box segs) with Some b => Ok (Single (mkDrawn (is_dark pol) b (PRegion segs))) | None => Err ValueError end
  | Stamp o => view_flash o
  end.
Lemma view_look h p m : deref h p = Some m -> penned m -> view h p = look m.
Proof.
  destruct p as [[a b ap pol u|a b c d ap q pol u]|l pol u|ap]; cbn [deref deref_seg]; intros D P.
  - injection D as <-. cbn [penned] in P. destruct ap as [ap|]; cbn [deref_ap] in *; [|congruence]. cbn [view look]. destruct (GerberEval.fetch h ap); congruence.
  - injection D as <-. cbn [penned] in P. destruct ap as [ap|]; cbn [deref_ap] in *; [|congruence]. cbn [view look]. destruct c as [c|]; [|reflexivity]. destruct (GerberEval.fetch h ap); congruence.
  - injection D as <-. cbn [view look]. unfold view_region. replace (mapM look_seg (map (deref_seg h) l)) with (mapM view_seg l); [reflexivity|]. clear. induction l as [|x l IH]; [reflexivity|].
    cbn [mapM map]. rewrite IH. replace (look_seg (deref_seg h x)) with (view_seg x); [reflexivity|]. destruct x as [|a b [c|] d ap q pol u]; reflexivity.
  - cbn [view]. destruct (GerberEval.fetch h ap) as [o|]; [|discriminate]. injection D as <-. reflexivity.
Qed.
Lemma view_alike h h' p p' m m' : deref h p = Some m -> deref h' p' = Some m' -> alike m m' ->
  (exists e, view h p = Err e /\ view h' p' = Err e) \/ exists i i', view h p = Ok i /\ view h' p' = Ok i' /\ parts i = parts i'.
Proof.
  intros D D' [[<- P]|(ps & c & pol & pol' & u & u' & -> & ->)].
  - rewrite (view_look _ _ _ D P), (view_look _ _ _ D' P). destruct (look m) as [i|e]; [right; exists i, i; auto|left; eauto].
  - rewrite (view_look _ _ _ D I), (view_look _ _ _ D' I). cbn [look]. unfold view_flash. cbn [GerberEval.o_pos GerberEval.o_shape GerberEval.o_pol]. destruct c as [c|]; [|left; eauto]. unfold view_macro.
    destruct (mapM (fun y => from_gerber (yield_text y)) ps) as [prims|e]; cbn [bind]; [|left; eauto]. destruct (group_shapes prims) as [sh|e]; cbn [bind]; [|left; eauto]. destruct (mapM (view_part (real_pt c)) sh) as [ds|e]; cbn [bind]; [|left; eauto].
    right. do 2 eexists. split; [reflexivity|]. split; reflexivity.
Qed.
Lemma views_alike h h' : forall l l' ms ms', map (deref h) l = map Some ms -> map (deref h') l' = map Some ms' -> Forall2 alike ms ms' ->
  (exists e, mapM (view h) l = Err e /\ mapM (view h') l' = Err e) \/ exists is is', mapM (view h) l = Ok is /\ mapM (view h') l' = Ok is' /\ flat_map parts is = flat_map parts is'.
Proof.
  induction l as [|p l IH]; intros l' ms ms' D D' A.
  - destruct ms; [|discriminate]. inversion A; subst. destruct l'; [|discriminate]. right. exists [], []. auto.
  - destruct ms as [|m ms]; [discriminate|]. inversion A as [|? m' ? ms0 Am As]; subst. destruct l' as [|p' l']; [discriminate|]. cbn [map] in D, D'. injection D as D1 D2. injection D' as E1 E2. cbn [mapM].
    destruct (view_alike h h' p p' m m' D1 E1 Am) as [(e & -> & ->)|(i & i' & -> & -> & P)]; [left; exists e; split; reflexivity|]. cbn [bind].
    destruct (IH l' ms ms0 D2 E2 As) as [(e1 & -> & ->)|(is & is' & -> & -> & Ps)]; [left; exists e1; split; reflexivity|]. right. exists (i :: is), (i' :: is'). cbn [bind flat_map]. now rewrite P, Ps.
Qed.
Lemma macro_polarity fill fc s inv mir l l' ms ms' b : definitions_ok [] l -> definitions_ok [] l' -> image fc [] l = Some ms -> image fc [] l' = Some ms' -> Forall2 alike ms ms' ->
  limited (zq 1000000) (x_coords l ++ y_coords l) -> limited (zq 1000000) (x_coords l' ++ y_coords l') -> coordinate_box l b -> coordinate_box l' b ->
  render_statements fill fc s inv mir l = render_statements fill fc s inv mir l'.
Proof.
  intros D D' Im Im' A L L' B B'. destruct (evaluates fc l ms D Im) as (st & k & Ev). destruct (evaluates fc l' ms' D' Im') as (st' & k' & Ev').
  rewrite (render_unfold fill fc s inv mir l st k b Ev L B), (render_unfold fill fc s inv mir l' st' k' b Ev' L' B').
  destruct (proj2 (GerberEvalProofs.evaluate_image fc l [] GerberEval.g_init st k (GerberEvalProofs.inv_init fc) Ev)) as (n & J & Sh).
  destruct (proj2 (GerberEvalProofs.evaluate_image fc l' [] GerberEval.g_init st' k' (GerberEvalProofs.inv_init fc) Ev')) as (n' & J' & Sh').
  assert (n = ms) by congruence. assert (n' = ms') by congruence. subst n n'. unfold render_file.
  destruct (views_alike (GerberEval.g_store st) (GerberEval.g_store st') (GerberEval.g_prims st) (GerberEval.g_prims st') ms ms' Sh Sh' A) as [(e & -> & ->)|(is & is' & -> & -> & P)]; [reflexivity|].
  cbn [bind]. unfold render_layer. now rewrite P.
Qed.

(** ** Lines drawn with obrounds or polygons *)
Definition obround_line (m : mark) : Prop :=
  match m with
  | Stroke (VLine _ _ (Some o) _ _) => match GerberEval.o_shape o with GerberEval.ShObround _ _ _ _ _ => True | _ => False end
  | _ => False
  end.
Definition polygon_line (m : mark) : Prop :=
  match m with
  | Stroke (VLine _ _ (Some o) _ _) => match GerberEval.o_shape o with GerberEval.ShPolygon _ _ _ _ _ _ => True | _ => False end
  | _ => False
  end.
Lemma view_obround h p m : deref h p = Some m -> obround_line m -> exists d, view h p = Ok (Group d []).
Proof.
  destruct p as [[a b ap pol u|a b c d ap q pol u]|l pol u|ap]; cbn [deref deref_seg]; intros D F.
  - injection D as <-. cbn [obround_line] in F. destruct ap as [ap|]; cbn [deref_ap] in *; [|contradiction]. cbn [view].
    destruct (GerberEval.fetch h ap) as [o|]; [|contradiction]. unfold view_line. destruct (GerberEval.o_shape o); try contradiction. eauto.
  - injection D as <-. destruct F.
  - injection D as <-. destruct F.
  - destruct (GerberEval.fetch h ap); [|discriminate]. injection D as <-. destruct F.
Qed.
Lemma view_polygon_line h p m : deref h p = Some m -> polygon_line m -> view h p = Err AttributeError.
Proof.
  destruct p as [[a b ap pol u|a b c d ap q pol u]|l pol u|ap]; cbn [deref deref_seg]; intros D F.
  - injection D as <-. cbn [polygon_line] in F. destruct ap as [ap|]; cbn [deref_ap] in *; [|contradiction]. cbn [view].
    destruct (GerberEval.fetch h ap) as [o|]; [|contradiction]. unfold view_line. destruct (GerberEval.o_shape o); try contradiction. reflexivity.
  - injection D as <-. destruct F.
  - injection D as <-. destruct F.
  - destruct (GerberEval.fetch h ap); [|discriminate]. injection D as <-. destruct F.
Qed.
Lemma views_obround h : forall l ms, map (deref h) l = map Some ms -> Forall obround_line ms -> exists items, mapM (view h) l = Ok items /\ flat_map parts items = [].
Proof.
  induction l as [|p l IH]; intros [|m ms] D F; try discriminate; [exists []; auto|]. cbn [map] in D. injection D as D1 D2. inversion F; subst.
  destruct (view_obround h p m D1) as (d & V); [assumption|]. destruct (IH ms D2) as (items & Vs & P); [assumption|].
  exists (Group d [] :: items). cbn [mapM flat_map parts app]. rewrite V. cbn [bind]. rewrite Vs. auto.
Qed.
Lemma obround_lines fill fc s mir l ms : definitions_ok [] l -> image fc [] l = Some ms -> Forall obround_line ms ->
  exists img, render_statements fill fc s false mir l = Ok img /\ forall q, ~ img q.
Proof.
  intros D Im F. destruct (evaluates fc l ms D Im) as (st & l' & E). unfold render_statements. rewrite E. cbn [bind]. unfold render_file.
  destruct (proj2 (GerberEvalProofs.evaluate_image fc l [] GerberEval.g_init st l' (GerberEvalProofs.inv_init fc) E)) as (ms' & Im' & Sh).
  assert (ms' = ms) by congruence. subst ms'. destruct (views_obround _ _ _ Sh F) as (items & V & P). rewrite V. cbn [bind]. unfold render_layer. rewrite P. cbn [render_all].
  eexists. split; [reflexivity|]. intros q [X _]. discriminate X.
Qed.
Lemma polygon_lines fill fc s inv mir l m ms : definitions_ok [] l -> image fc [] l = Some (m :: ms) -> polygon_line m ->
  render_statements fill fc s inv mir l = Err AttributeError.
Proof.
  intros D Im F. destruct (evaluates fc l _ D Im) as (st & l' & E). unfold render_statements. rewrite E. cbn [bind]. unfold render_file.
  destruct (proj2 (GerberEvalProofs.evaluate_image fc l [] GerberEval.g_init st l' (GerberEvalProofs.inv_init fc) E)) as (ms' & Im' & Sh).
  assert (ms' = m :: ms) by congruence. subst ms'. change (shown GerberEval.g_init ++ map Some (m :: ms)) with (Some m :: map Some ms) in Sh. unfold shown in Sh.
  destruct (GerberEval.g_prims st) as [|p ps]; [discriminate|]. cbn [map] in Sh. injection Sh as Sh _. cbn [mapM]. now rewrite (view_polygon_line _ _ _ Sh F).
Qed.

(** ** Examples *)
Definition fc0 : GerberEval.centre_fun := fun _ a _ o => Some ((fst a + fst o)%Qc, (snd a + snd o)%Qc).
Definition go (x y : Z) (op : string) : stmt := SCoord None (Some (zq x)) (Some (zq y)) None None (Some (T op)).
Definition dot (o : GerberEval.shape) (x y : Z) (p : polarity) : mark := Stamp (GerberEval.mkObj o (Some (zq x, zq y)) p Inch).
Definition line (x0 y0 x1 y1 : Z) (o : GerberEval.shape) : mark :=
  Stroke (VLine (zq x0, zq y0) (zq x1, zq y1) (Some (GerberEval.mkObj o None Dark Inch)) Dark Inch).
Definition edge (x0 y0 x1 y1 : Z) (o : GerberEval.shape) : vseg :=
  VLine (zq x0, zq y0) (zq x1, zq y1) (Some (GerberEval.mkObj o None Dark Inch)) Dark Inch.
Definition circle (d : Z) : GerberEval.shape := GerberEval.ShCircle (zq d) 0%Qc 0%Qc 0%Qc.
Definition rect (w h : Z) : GerberEval.shape := GerberEval.ShRect (zq w) (zq h) 0%Qc 0%Qc 0%Qc.
Definition obround (w h : Z) : GerberEval.shape := GerberEval.ShObround (zq w) (zq h) 0%Qc 0%Qc 0%Qc.
(** Two dots. *)
Definition two_dots : list stmt := [SMO true Inch; SAD 10 (T "C") [[zq 2]]; SAp 10 false; go 0 0 "D03"; go 10 10 "D03"].
Lemma two_dots_image : image fc0 [] two_dots = Some [dot (circle 2) 0 0 Dark; dot (circle 2) 10 10 Dark].
Proof. vm_compute. reflexivity. Qed.
Ltac known_definitions := cbn [definitions_ok]; repeat split; exact I || (do 3 eexists; split; [reflexivity|vm_compute; reflexivity]).
Lemma two_dots_ok : definitions_ok [] two_dots.
Proof. known_definitions. Qed.
Lemma two_dots_limited : limited (zq 1000000) (x_coords two_dots ++ y_coords two_dots).
Proof. intros v V. vm_compute in V. repeat destruct V as [<-|V]; try destruct V; split; apply qcle_true; vm_compute; reflexivity. Qed.
Ltac outermost := split; [vm_compute; tauto|let v := fresh in let V := fresh in intros v V; vm_compute in V; repeat destruct V as [<-|V]; try destruct V; apply qcle_true; vm_compute; reflexivity].
Lemma two_dots_box : coordinate_box two_dots ((0, 10), (0, 10)).
Proof.
  exists (zq 0), (zq 10), (zq 0), (zq 10). rewrite !real_zq. split; [outermost|]. split; [outermost|]. split; [outermost|]. split; [outermost|reflexivity].
Qed.
Lemma real_zero : real 0%Qc = 0.
Proof. exact real_0. Qed.
Lemma circle_fair d x y p : (0 < d)%Z -> fair (dot (circle d) x y p).
Proof.
  intro D. split; [discriminate|]. cbn [circle fair_flash dot GerberEval.o_shape]. rewrite real_zq, real_zero. split; [apply IZR_lt, D|]. right. left. lra.
Qed.
Lemma two_dots_fair : Forall fair [dot (circle 2) 0 0 Dark; dot (circle 2) 10 10 Dark].
Proof. repeat apply Forall_cons; try apply Forall_nil; apply circle_fair; lia. Qed.
Lemma dot_covers fill d x y p q : covers fill (dot (circle d) x y p) q <-> disc (IZR x, IZR y) (IZR d / 2) q.
Proof.
  cbn [covers dot GerberEval.o_pos GerberEval.o_shape flashed circle]. unfold real_pt. cbn [fst snd]. rewrite !real_zq, real_zero.
  unfold with_holes, without, round_hole, rect_hole. split; [now intros [[? _] _]|]. intro C. split; [split; [exact C|]|]; intros [? _]; lra.
Qed.
(** The left half of the first dot is lost. *)
Definition beside : pt := (- (1 / 2), 0).
Lemma beside_shown fill : shows fill [dot (circle 2) 0 0 Dark; dot (circle 2) 10 10 Dark] beside.
Proof.
  exists [], (dot (circle 2) 0 0 Dark), [dot (circle 2) 10 10 Dark]. split; [reflexivity|]. split; [reflexivity|]. split.
  - apply dot_covers. unfold disc, dist2, beside. cbn [fst snd]. lra.
  - intros m [<-|[]] D. discriminate D.
Qed.
Lemma beside_below fill : below_tops fill 10 [dot (circle 2) 0 0 Dark; dot (circle 2) 10 10 Dark] beside.
Proof.
  intros m x [<-|[<-|[]]] P C; apply piece_only in P; try (intros []); subst x.
  - exists (0, 1). split; [apply dot_covers; unfold disc, dist2; cbn [fst snd]; lra|unfold beside; cbn [snd]; lra].
  - apply dot_covers in C. unfold disc, dist2, beside in C. cbn [fst snd] in C. lra.
Qed.

(** A line drawn with an obround. *)
Definition obround_file : list stmt := [SMO true Inch; SAD 10 (T "O") [[zq 2; zq 1]]; SAp 10 false; go 0 0 "D02"; go 10 10 "D01"].
Lemma obround_image : image fc0 [] obround_file = Some [line 0 0 10 10 (obround 2 1)].
Proof. vm_compute. reflexivity. Qed.
Lemma obround_ok : definitions_ok [] obround_file.
Proof. known_definitions. Qed.
Lemma obround_shown fill : shows fill [line 0 0 10 10 (obround 2 1)] (5, 5).
Proof.
  exists [], (line 0 0 10 10 (obround 2 1)), []. split; [reflexivity|]. split; [reflexivity|]. split; [|intros m []].
  cbn [covers line pen GerberEval.o_shape obround]. unfold real_pt. cbn [fst snd]. rewrite !real_zq.
  exists (5, 5), (0, 0). split; [exists (1 / 2); split; [lra|cbn [fst snd]; f_equal; lra]|]. split; [|cbn [fst snd]; f_equal; lra].
  unfold capsule. destruct (Rlt_dec 2 1) as [N|_]; [lra|]. exists (0, 0), (0, 0). split; [exists (1 / 2); split; [lra|cbn [fst snd]; f_equal; lra]|].
  split; [unfold disc, dist2; cbn [fst snd]; lra|cbn [fst snd]; f_equal; lra].
Qed.
(** A line drawn with a polygon. *)
Definition polygon_file : list stmt := [SMO true Inch; SAD 10 (T "P") [[zq 2; zq 6]]; SAp 10 false; go 0 0 "D02"; go 10 10 "D01"].
Lemma polygon_ok : definitions_ok [] polygon_file.
Proof. known_definitions. Qed.
Lemma polygon_image : exists m, image fc0 [] polygon_file = Some [m] /\ polygon_line m.
Proof. eexists. split; [vm_compute; reflexivity|]. vm_compute. exact I. Qed.

(** A bar drawn with a rectangle, and a square region with a round hole. *)
Definition bar_file : list stmt :=
  [SMO true Inch; SAD 10 (T "C") [[zq 2]]; SAD 11 (T "R") [[zq 2; zq 4]]; SAp 11 false; go 0 0 "D02"; go 20 0 "D01"; SAp 10 false;
   SReg On; go 5 10 "D02"; go 15 10 "D01"; go 15 20 "D01"; go 5 20 "D01"; go 5 10 "D01"; SReg Off; SLP Clear; go 10 15 "D03"].
Definition bar_marks : list mark :=
  [line 0 0 20 0 (rect 2 4);
   Fill [edge 5 10 15 10 (circle 2); edge 15 10 15 20 (circle 2); edge 15 20 5 20 (circle 2); edge 5 20 5 10 (circle 2)] Dark Inch;
   dot (circle 2) 10 15 Clear].
Lemma bar_image : image fc0 [] bar_file = Some bar_marks.
Proof. vm_compute. reflexivity. Qed.
Lemma bar_ok : definitions_ok [] bar_file.
Proof. known_definitions. Qed.
Lemma bar_limited : limited (zq 1000000) (x_coords bar_file ++ y_coords bar_file).
Proof. intros v V. vm_compute in V. repeat destruct V as [<-|V]; try destruct V; split; apply qcle_true; vm_compute; reflexivity. Qed.
Lemma bar_box : coordinate_box bar_file ((0, 20), (0, 20)).
Proof.
  exists (zq 0), (zq 20), (zq 0), (zq 20). rewrite !real_zq. split; [outermost|]. split; [outermost|]. split; [outermost|]. split; [outermost|reflexivity].
Qed.
Lemma bar_fair : Forall fair bar_marks.
Proof.
  apply Forall_cons; [|apply Forall_cons; [|apply Forall_cons; [|apply Forall_nil]]].
  - cbn [fair line line_pen GerberEval.o_shape rect]. unfold no_hole. rewrite !real_zq, real_zero. lra.
  - cbn [fair]. do 2 eexists. split; [reflexivity|]. cbn. split; [repeat split|]. repeat apply Forall_cons; try apply Forall_nil; exact I.
  - apply circle_fair. lia.
Qed.
Lemma bar_covers fill q : covers fill (line 0 0 20 0 (rect 2 4)) q <-> -1 <= fst q <= 21 /\ -2 <= snd q <= 2.
Proof.
  cbn [covers line pen GerberEval.o_shape rect]. unfold real_pt. cbn [fst snd]. rewrite !real_zq. split.
  - intros ([ax ay] & [bx b_y] & (t & T0 & E) & [O1 O2] & ->). cbn [fst snd] in *. injection E as -> ->. lra.
  - intros [X Y]. set (x := Rmax 0 (Rmin 20 (fst q))). assert (J : 0 <= x <= 20 /\ -1 <= fst q - x <= 1).
    { unfold x. unfold Rmax, Rmin. destruct (Rle_dec 20 (fst q)); destruct (Rle_dec 0 _); lra. }
    exists (x, 0), (fst q - x, snd q). split; [exists (x / 20); split; [lra|cbn [fst snd]; f_equal; lra]|]. unfold oblong. cbn [fst snd]. split; [lra|].
    destruct q. cbn [fst snd]. f_equal; ring.
Qed.
Lemma region_inside fill q : sensible fill -> covers fill (nth 1 bar_marks (dot (circle 1) 0 0 Dark)) q -> inside ((5, 15), (10, 20)) q.
Proof.
  intros Se. cbn [nth bar_marks covers]. intros (cs & G & X). revert q X. apply (s_inside _ Se). intros q (f & t & J & T0 & ->).
  repeat match goal with K : Forall2 goes (_ :: _) _ |- _ => inversion K; clear K; subst | K : Forall2 goes [] _ |- _ => inversion K; clear K; subst end.
  repeat match goal with K : goes _ _ |- _ => cbn [goes edge] in K; subst end. unfold real_pt in J. cbn [fst snd] in J. rewrite !real_zq in J.
  repeat destruct J as [<-|J]; try destruct J; apply straight_inside; try exact T0; unfold inside; cbn [fst snd]; lra.
Qed.
Lemma bar_shown fill : sensible fill -> inside ((0, 20), (0, 20)) (10, 1) /\ below_tops fill 10 bar_marks (10, 1) /\ shows fill bar_marks (10, 1).
Proof.
  intro Se. split; [unfold inside; cbn [fst snd]; lra|]. split.
  - intros m x [<-|[<-|[<-|[]]]] P C; apply piece_only in P; try (intros []); subst x.
    + exists (10, 2). split; [apply bar_covers; cbn [fst snd]; lra|cbn [snd]; lra].
    + apply (region_inside fill _ Se) in C. unfold inside in C. cbn [fst snd] in C. lra.
    + apply dot_covers in C. unfold disc, dist2 in C. cbn [fst snd] in C. lra.
  - exists [], (line 0 0 20 0 (rect 2 4)), (tl bar_marks). split; [reflexivity|]. split; [reflexivity|]. split; [apply bar_covers; cbn [fst snd]; lra|].
    intros m [<-|[<-|[]]] D; [discriminate D|]. intro C. apply dot_covers in C. unfold disc, dist2 in C. cbn [fst snd] in C. lra.
Qed.
(** The middle of the region is clear. *)
Lemma bar_hole fill : ~ shows fill bar_marks (10, 15).
Proof.
  intros (m1 & m & m2 & E & D & C & N). assert (H : In (dot (circle 2) 10 15 Clear) m2).
  { unfold bar_marks in E. destruct m1 as [|x1 [|x2 [|x3 m1]]]; cbn [app] in E.
    - injection E as _ <-. right. now left.
    - injection E as _ _ <-. now left.
    - injection E as _ _ <- <-. discriminate D.
    - injection E as _ _ _ E. destruct m1; discriminate E. }
  apply (N _ H eq_refl). apply dot_covers. unfold disc, dist2. cbn [fst snd]. lra.
Qed.

(** ** A clear dot on an inverted layer *)
Definition clear_dot : list stmt := [SMO true Inch; SAD 10 (T "C") [[zq 2]]; SLP Clear; SAp 10 false; go 0 0 "D02"; go 5 5 "D03"; go 10 10 "D02"].
Lemma clear_dot_image : image fc0 [] clear_dot = Some [dot (circle 2) 5 5 Clear].
Proof. vm_compute. reflexivity. Qed.
Lemma clear_dot_ok : definitions_ok [] clear_dot.
Proof. known_definitions. Qed.
Lemma clear_dot_limited : limited (zq 1000000) (x_coords clear_dot ++ y_coords clear_dot).
Proof. intros v V. vm_compute in V. repeat destruct V as [<-|V]; try destruct V; split; apply qcle_true; vm_compute; reflexivity. Qed.
Lemma clear_dot_box : coordinate_box clear_dot ((0, 10), (0, 10)).
Proof.
  exists (zq 0), (zq 10), (zq 0), (zq 10). rewrite !real_zq. split; [outermost|]. split; [outermost|]. split; [outermost|]. split; [outermost|reflexivity].
Qed.
Lemma clear_dot_fair : Forall fair [dot (circle 2) 5 5 Clear].
Proof. apply Forall_cons; [|apply Forall_nil]. apply circle_fair. lia. Qed.
Lemma clear_dot_inverted :
  ~ (forall fill, sensible fill -> exists img, render_statements fill fc0 10 true false clear_dot = Ok img /\
      forall p, inside ((0, 10), (0, 10)) p -> below_tops fill 10 [dot (circle 2) 5 5 Clear] p -> (img (pixel 10 ((0, 10), (0, 10)) false p) <-> ~ shows fill [dot (circle 2) 5 5 Clear] p)).
Proof.
  intro C. destruct (C hulled hulled_sensible) as (img & R & H). clear C.
  destruct (evaluates fc0 clear_dot _ clear_dot_ok clear_dot_image) as (st & l' & Ev).
  rewrite (render_unfold hulled fc0 10 true false clear_dot st l' _ Ev clear_dot_limited clear_dot_box) in R.
  destruct (proj2 (GerberEvalProofs.evaluate_image fc0 clear_dot [] GerberEval.g_init st l' (GerberEvalProofs.inv_init fc0) Ev)) as (ms' & Im' & Sh).
  rewrite clear_dot_image in Im'. injection Im' as <-. change (shown GerberEval.g_init ++ map Some [dot (circle 2) 5 5 Clear]) with [Some (dot (circle 2) 5 5 Clear)] in Sh.
  unfold shown in Sh. unfold render_file in R. destruct (GerberEval.g_prims st) as [|x [|y l]]; try discriminate Sh. cbn [map] in Sh. injection Sh as Sh.
  assert (V : view (GerberEval.g_store st) x = Ok (Single (mkDrawn false (circle_box (5, 5) 2) (PCircle (5, 5) 2 0 0 0 0)))).
  { destruct x as [s0|ss pol u|ap]; try discriminate Sh. cbn [deref view] in *. destruct (GerberEval.fetch (GerberEval.g_store st) ap) as [o|]; [|discriminate Sh]. injection Sh as ->.
    cbn [view_flash GerberEval.o_pos GerberEval.o_shape GerberEval.o_pol circle is_dark]. unfold real_pt. cbn [fst snd]. rewrite !real_zq, real_zero. reflexivity. }
  cbn [mapM] in R. rewrite V in R. cbn [bind] in R. set (d' := mkDrawn true (circle_box (5, 5) 2) (PCircle (5, 5) 2 0 0 0 0)).
  destruct (inverted_ok hulled ((0, 10), (0, 10)) 10 false [Single d'] hulled_filling) as (img' & R' & H'); [lra|cbn; lra|cbn; lra| |].
  { apply Forall_cons; [|apply Forall_nil]. split; [|split; [cbn; lra|split; [reflexivity|cbn; lra]]]. cbn [d' bbox what prim_shape]. apply with_holes_inside. apply circle_bounds. lra. }
  assert (E : img = img').
  { apply ok_inj. rewrite <- R, <- R'. reflexivity. }
  subst img'.
  assert (D : prim_shape hulled (what d') (5, 5)).
  { cbn [d' what prim_shape]. unfold with_holes, without, round_hole, rect_hole. split; [split|]; [unfold disc, dist2; cbn [fst snd]; lra| |]; intros [? _]; lra. }
  assert (I : inside ((0, 10), (0, 10)) (5, 5)) by (unfold inside; cbn [fst snd]; lra).
  assert (B : below_top hulled 10 [Single d'] (5, 5)) by (intros z [<-|[]] _; unfold d', circle_box, BoxModel.circle_box, around; cbn [bbox fst snd]; unfold half; lra).
  apply (proj1 (H' (5, 5) I B)).
  - apply (H (5, 5) I).
    + intros m x0 [<-|[]] P _. apply piece_only in P; [subst x0|intros []]. exists (5, 6). split; [apply dot_covers; unfold disc, dist2; cbn [fst snd]; lra|cbn [snd]; lra].
    + intros (m1 & m & m2 & Em & Dk & _). destruct m1 as [|z [|z' m1]]; cbn [app] in Em; [injection Em as <- _; discriminate Dk|discriminate Em|discriminate Em].
  - exists [], (prim_shape hulled (what d')), []. split; [reflexivity|]. split; [exact D|intros ? []].
Qed.

(** ** Macros *)
(** A circle above a rectangle. *)
Definition key_body : text := T "1,1,4,0,3*21,1,6,2,0,0,0*".
Definition key_file : list stmt := [SMO true Inch; SAM (T "KEY") key_body []; SAD 10 (T "KEY") [[]]; SAp 10 false; go 0 0 "D02"; go 10 10 "D03"; go 20 20 "D02"].
Definition key_values : list (Z * list mval) := [(1%Z, map MNum [zq 1; zq 4; zq 0; zq 3]); (21%Z, map MNum [zq 1; zq 6; zq 2; zq 0; zq 0; zq 0])].
Definition key_prims : list amprim := [ACircle true (zq 4) (zq 0, zq 3); ACenter true (zq 6) (zq 2) (zq 0, zq 0) (zq 0)].
Lemma key_image : image fc0 [] key_file = Some [dot (GerberEval.ShMacro key_values) 10 10 Dark].
Proof. vm_compute. reflexivity. Qed.
Lemma key_ok : definitions_ok [] key_file.
Proof.
  cbn [definitions_ok key_file]. split; [exact I|]. split; [eexists; vm_compute; reflexivity|]. split; [do 3 eexists; split; [reflexivity|vm_compute; reflexivity]|]. repeat split; exact I.
Qed.
Lemma key_limited : limited (zq 1000000) (x_coords key_file ++ y_coords key_file).
Proof. intros v V. vm_compute in V. repeat destruct V as [<-|V]; try destruct V; split; apply qcle_true; vm_compute; reflexivity. Qed.
Lemma key_box : coordinate_box key_file ((0, 20), (0, 20)).
Proof.
  exists (zq 0), (zq 20), (zq 0), (zq 20). rewrite !real_zq. split; [outermost|]. split; [outermost|]. split; [outermost|]. split; [outermost|reflexivity].
Qed.
Lemma key_is : macro_is key_values key_prims.
Proof.
  constructor; [|constructor; [|constructor]].
  - exists [zq 1; zq 4; zq 0; zq 3]. split; [reflexivity|]. change (means 1 (map rnd53 [zq 1; zq 4; zq 0; zq 3]) (ACircle true (zq 4) (zq 0, zq 3))).
    replace (map rnd53 [zq 1; zq 4; zq 0; zq 3]) with [zq 1; zq 4; zq 0; zq 3] by (cbn [map]; repeat (apply f_equal2; [apply Qc_is_canon; vm_compute; reflexivity|]); reflexivity). constructor. split; reflexivity.
  - exists [zq 1; zq 6; zq 2; zq 0; zq 0; zq 0]. split; [reflexivity|]. change (means 21 (map rnd53 [zq 1; zq 6; zq 2; zq 0; zq 0; zq 0]) (ACenter true (zq 6) (zq 2) (zq 0, zq 0) (zq 0))).
    replace (map rnd53 [zq 1; zq 6; zq 2; zq 0; zq 0; zq 0]) with [zq 1; zq 6; zq 2; zq 0; zq 0; zq 0] by (cbn [map]; repeat (apply f_equal2; [apply Qc_is_canon; vm_compute; reflexivity|]); reflexivity). constructor. split; reflexivity.
Qed.
Lemma key_fair_parts : Forall fair_part key_prims.
Proof.
  apply Forall_cons; [|apply Forall_cons; [|apply Forall_nil]]; (split; [reflexivity|]); cbn [drawn_part]; rewrite ?real_zq; [lra|]. split; [lra|]. split; [lra|]. right. reflexivity.
Qed.
Lemma key_fair : Forall fair [dot (GerberEval.ShMacro key_values) 10 10 Dark].
Proof. apply Forall_cons; [|apply Forall_nil]. split; [discriminate|]. split; [reflexivity|]. exists key_prims. split; [exact key_is|exact key_fair_parts]. Qed.
Lemma key_bar fill q : area fill (10, 10) (ACenter true (zq 6) (zq 2) (zq 0, zq 0) (zq 0)) q <-> 7 <= fst q <= 13 /\ 9 <= snd q <= 11.
Proof.
  cbn [area]. unfold moved at 1. unfold center_line_area. rewrite !real_zq. unfold real_pt. cbn [fst snd]. rewrite !real_zq.
  rewrite turned_zero. unfold moved, oblong, origin. cbn [fst snd]. lra.
Qed.
Lemma key_real : real_pt (zq 10, zq 10) = (10, 10).
Proof. unfold real_pt. cbn [fst snd]. now rewrite real_zq. Qed.
Lemma key_shown fill : inside ((0, 20), (0, 20)) (12, 10) /\ below_tops fill 10 [dot (GerberEval.ShMacro key_values) 10 10 Dark] (12, 10) /\ shows fill [dot (GerberEval.ShMacro key_values) 10 10 Dark] (12, 10).
Proof.
  split; [unfold inside; cbn [fst snd]; lra|]. split.
  - intros m x [<-|[]] (prims & a & M & J & ->) C. rewrite (macro_unique _ _ _ M key_is) in J. rewrite key_real in *. destruct J as [<-|[<-|[]]].
    + exfalso. cbn [area] in C. rewrite placed_zero in C. unfold disc, dist2, shift, real_pt in C. cbn [fst snd] in C. rewrite !real_zq in C. lra.
    + exists (12, 11). split; [apply key_bar; cbn [fst snd]; lra|cbn [snd]; lra].
  - exists [], (dot (GerberEval.ShMacro key_values) 10 10 Dark), []. split; [reflexivity|]. split; [reflexivity|]. split; [|intros m []].
    cbn [covers dot GerberEval.o_pos GerberEval.o_shape flashed]. rewrite key_real. exists key_prims. split; [exact key_is|].
    exists [(true, area fill (10, 10) (ACircle true (zq 4) (zq 0, zq 3)))], (area fill (10, 10) (ACenter true (zq 6) (zq 2) (zq 0, zq 0) (zq 0))), [].
    split; [reflexivity|]. split; [apply key_bar; cbn [fst snd]; lra|intros s' []].
Qed.
(** The same macro flashed clear on a large dot. *)
Definition key_on_dot (p : polarity) : list stmt :=
  [SMO true Inch; SAM (T "KEY") key_body []; SAD 10 (T "KEY") [[]]; SAD 11 (T "C") [[zq 20]]; go 0 0 "D02"; SAp 11 false; go 10 10 "D03"; SAp 10 false; SLP p; go 10 10 "D03"; go 20 20 "D02"].
Definition key_on_dot_marks (p : polarity) : list mark := [dot (circle 20) 10 10 Dark; dot (GerberEval.ShMacro key_values) 10 10 p].
Lemma key_on_dot_image p : image fc0 [] (key_on_dot p) = Some (key_on_dot_marks p).
Proof. destruct p; vm_compute; reflexivity. Qed.
Lemma key_on_dot_ok p : definitions_ok [] (key_on_dot p).
Proof.
  cbn [definitions_ok key_on_dot]. split; [exact I|]. split; [eexists; vm_compute; reflexivity|]. split; [do 3 eexists; split; [reflexivity|vm_compute; reflexivity]|].
  split; [do 3 eexists; split; [reflexivity|vm_compute; reflexivity]|]. repeat split; exact I.
Qed.
Lemma key_on_dot_limited p : limited (zq 1000000) (x_coords (key_on_dot p) ++ y_coords (key_on_dot p)).
Proof. intros v V. vm_compute in V. repeat destruct V as [<-|V]; try destruct V; split; apply qcle_true; vm_compute; reflexivity. Qed.
Lemma key_on_dot_box p : coordinate_box (key_on_dot p) ((0, 20), (0, 20)).
Proof.
  exists (zq 0), (zq 20), (zq 0), (zq 20). rewrite !real_zq. split; [outermost|]. split; [outermost|]. split; [outermost|]. split; [outermost|reflexivity].
Qed.
Lemma key_on_dot_alike : Forall2 alike (key_on_dot_marks Clear) (key_on_dot_marks Dark).
Proof. constructor; [left; split; [reflexivity|exact I]|]. constructor; [|constructor]. right. do 6 eexists. split; reflexivity. Qed.
Lemma key_covers fill p : covers fill (dot (GerberEval.ShMacro key_values) 10 10 p) (12, 10).
Proof.
  destruct (key_shown fill) as (_ & _ & (m1 & m & m2 & E & _ & C & _)). destruct m1 as [|z [|? m1]]; try discriminate E. injection E as <- _. exact C.
Qed.
Lemma key_dark fill : shows fill (key_on_dot_marks Dark) (12, 10).
Proof. exists [dot (circle 20) 10 10 Dark], (dot (GerberEval.ShMacro key_values) 10 10 Dark), []. split; [reflexivity|]. split; [reflexivity|]. split; [apply key_covers|intros m []]. Qed.
Lemma key_clear fill : ~ shows fill (key_on_dot_marks Clear) (12, 10).
Proof.
  intros (m1 & m & m2 & E & D & C & N). unfold key_on_dot_marks in E. destruct m1 as [|x1 [|x2 m1]]; cbn [app] in E.
  - injection E as _ <-. apply (N (dot (GerberEval.ShMacro key_values) 10 10 Clear) (or_introl eq_refl) eq_refl). apply key_covers.
  - injection E as _ <- _. discriminate D.
  - injection E as _ _ E. destruct m1; discriminate E.
Qed.

(** A ring: a circle with a hole, on the same dot. *)
Definition ring_body : text := T "1,1,8,0,0*1,0,4,0,0*".
Definition ring_file : list stmt :=
  [SMO true Inch; SAM (T "RING") ring_body []; SAD 10 (T "RING") [[]]; SAD 11 (T "C") [[zq 20]]; go 0 0 "D02"; SAp 11 false; go 10 10 "D03"; SAp 10 false; go 10 10 "D03"; go 20 20 "D02"].
Definition ring_values : list (Z * list mval) := [(1%Z, map MNum [zq 1; zq 8; zq 0; zq 0]); (1%Z, map MNum [zq 0; zq 4; zq 0; zq 0])].
Definition ring_prims : list amprim := [ACircle true (zq 8) (zq 0, zq 0); ACircle false (zq 4) (zq 0, zq 0)].
Definition ring_marks : list mark := [dot (circle 20) 10 10 Dark; dot (GerberEval.ShMacro ring_values) 10 10 Dark].
Lemma ring_image : image fc0 [] ring_file = Some ring_marks.
Proof. vm_compute. reflexivity. Qed.
Lemma ring_ok : definitions_ok [] ring_file.
Proof.
  cbn [definitions_ok ring_file]. split; [exact I|]. split; [eexists; vm_compute; reflexivity|]. split; [do 3 eexists; split; [reflexivity|vm_compute; reflexivity]|].
  split; [do 3 eexists; split; [reflexivity|vm_compute; reflexivity]|]. repeat split; exact I.
Qed.
Lemma ring_limited : limited (zq 1000000) (x_coords ring_file ++ y_coords ring_file).
Proof. intros v V. vm_compute in V. repeat destruct V as [<-|V]; try destruct V; split; apply qcle_true; vm_compute; reflexivity. Qed.
Lemma ring_box : coordinate_box ring_file ((0, 20), (0, 20)).
Proof.
  exists (zq 0), (zq 20), (zq 0), (zq 20). rewrite !real_zq. split; [outermost|]. split; [outermost|]. split; [outermost|]. split; [outermost|reflexivity].
Qed.
Lemma ring_is : macro_is ring_values ring_prims.
Proof.
  constructor; [|constructor; [|constructor]].
  - exists [zq 1; zq 8; zq 0; zq 0]. split; [reflexivity|]. change (means 1 (map rnd53 [zq 1; zq 8; zq 0; zq 0]) (ACircle true (zq 8) (zq 0, zq 0))).
    replace (map rnd53 [zq 1; zq 8; zq 0; zq 0]) with [zq 1; zq 8; zq 0; zq 0] by (cbn [map]; repeat (apply f_equal2; [apply Qc_is_canon; vm_compute; reflexivity|]); reflexivity). constructor. split; reflexivity.
  - exists [zq 0; zq 4; zq 0; zq 0]. split; [reflexivity|]. change (means 1 (map rnd53 [zq 0; zq 4; zq 0; zq 0]) (ACircle false (zq 4) (zq 0, zq 0))).
    replace (map rnd53 [zq 0; zq 4; zq 0; zq 0]) with [zq 0; zq 4; zq 0; zq 0] by (cbn [map]; repeat (apply f_equal2; [apply Qc_is_canon; vm_compute; reflexivity|]); reflexivity). constructor.
    split; intro X; [discriminate X|]. now vm_compute in X.
Qed.
Lemma ring_drawn : Forall drawn_mark ring_marks.
Proof.
  apply Forall_cons; [apply circle_fair; lia|]. apply Forall_cons; [|apply Forall_nil]. exists ring_prims. split; [exact ring_is|]. apply Forall_cons; [|apply Forall_cons; [|apply Forall_nil]]; cbn [drawn_part]; rewrite real_zq; lra.
Qed.
Lemma ring_dark : Forall (fun m => macro_stamp m -> dark_mark m = true) ring_marks.
Proof. repeat (apply Forall_cons; [reflexivity|]). apply Forall_nil. Qed.
Definition ring_pieces fill : list (list (bool * shape)) :=
  [[(true, covers fill (dot (circle 20) 10 10 Dark))]; [(true, area fill (10, 10) (ACircle true (zq 8) (zq 0, zq 0))); (false, area fill (10, 10) (ACircle false (zq 4) (zq 0, zq 0)))]].
Lemma ring_taken fill : Forall2 (taken_apart fill) ring_marks (ring_pieces fill).
Proof. constructor; [reflexivity|]. constructor; [|constructor]. cbn [taken_apart dot]. rewrite key_real. exists ring_prims. split; [exact ring_is|reflexivity]. Qed.
Lemma ring_area fill on d p : area fill (10, 10) (ACircle on (zq d) (zq 0, zq 0)) p <-> disc (10, 10) (IZR d / 2) p.
Proof. cbn [area]. rewrite placed_zero. unfold shift, real_pt. cbn [fst snd]. rewrite !real_zq. replace (0 + 10) with 10 by ring. reflexivity. Qed.
Lemma ring_below fill : below_tops fill 10 ring_marks (10, 10).
Proof.
  assert (Q : forall d, (2 < d)%Z -> disc (10, 10) (IZR d / 2) (10, 11)).
  { intros d D. apply IZR_lt in D. unfold disc, dist2. cbn [fst snd]. nra. }
  intros m x [<-|[<-|[]]] P C.
  - apply piece_only in P; [subst x|intros []]. exists (10, 11). split; [apply dot_covers; apply Q; lia|cbn [snd]; lra].
  - destruct P as (prims & a & M & J & ->). rewrite (macro_unique _ _ _ M ring_is) in J. rewrite key_real in *. exists (10, 11). split; [|cbn [snd]; lra].
    destruct J as [<-|[<-|[]]]; apply ring_area; apply Q; lia.
Qed.
Lemma ring_shown fill : shows fill ring_marks (10, 10).
Proof.
  exists [], (dot (circle 20) 10 10 Dark), [dot (GerberEval.ShMacro ring_values) 10 10 Dark]. split; [reflexivity|]. split; [reflexivity|]. split.
  - apply dot_covers. unfold disc, dist2. cbn [fst snd]. lra.
  - intros m [<-|[]] D. discriminate D.
Qed.
Lemma ring_not fill : ~ darkened (List.concat (ring_pieces fill)) (10, 10).
Proof.
  intros (l1 & s & l2 & E & _ & N). assert (J : In (false, area fill (10, 10) (ACircle false (zq 4) (zq 0, zq 0))) l2).
  { unfold ring_pieces in E. cbn [List.concat app] in E. destruct l1 as [|a [|b [|c l1]]]; cbn [app] in E.
    - injection E as _ <-. right. now left.
    - injection E as _ _ <-. now left.
    - injection E as _ _ E. discriminate E.
    - injection E as _ _ _ E. destruct l1; discriminate E. }
  apply (N _ J). apply ring_area. unfold disc, dist2. cbn [fst snd]. lra.
Qed.
Lemma ring_image_wrong :
  ~ (forall fill, sensible fill -> exists img, render_statements fill fc0 10 false false ring_file = Ok img /\
      forall p, inside ((0, 20), (0, 20)) p -> below_tops fill 10 ring_marks p -> (img (pixel 10 ((0, 20), (0, 20)) false p) <-> shows fill ring_marks p)).
Proof.
  intro C. destruct (C hulled hulled_sensible) as (img & R & H). clear C.
  destruct (apart_shown hulled fc0 10 false ring_file ring_marks _ _ hulled_sensible ltac:(lra) ring_ok ring_image ring_drawn (ring_taken hulled) ring_limited ring_box) as (img' & R' & H').
  rewrite R in R'. apply ok_inj in R'. subst img'. assert (J : inside ((0, 20), (0, 20)) (10, 10)) by (unfold inside; cbn [fst snd]; lra).
  apply (ring_not hulled). apply (H' _ J (ring_below hulled)). apply (H _ J (ring_below hulled)). apply ring_shown.
Qed.
