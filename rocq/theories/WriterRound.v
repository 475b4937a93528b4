(** Proof that what was rendered is what is read. *)
From Verif Require Import PyBase QcLib NumModel NumSpec GerberText GerberTextSpec GerberTextProofs MacroModel GerberEval GerberEvalSpec GerberEvalProofs WriterModel WriterSpec WriterProofs.
Open Scope Qc_scope.
Open Scope list_scope.

Definition key_is (k : key) (s : shape) : Prop :=
  match k, s with
  | KCircle d h, ShCircle d' a b c => d' = d /\ hole_is h a b c
  | KRect w h hs, ShRect w' h' a b c => w' = w /\ h' = h /\ hole_is hs a b c
  | KObround w h hs, ShObround w' h' a b c => w' = w /\ h' = h /\ hole_is hs a b c
  | KPolygon r n t hs, ShPolygon n' r' t' a b c => n' = n /\ r' = r /\ t' = t /\ hole_is hs a b c
  | _, _ => False
  end.
Lemma figure_key_is f s : figure_is f s -> key_is (figure_key f) s.
Proof. destruct f, s; cbn; intuition. Qed.

Section Sync.
Variable fc : centre_fun.
Variable F : list (key * Z).
Variable u : unit_.

(** The reader after [past] agrees with what the writer believes. *)
Record sync (r : onoff) (segs : list vseg) (past : list stmt) (c : ctx) : Prop := {
  s_region : in_region past = r;
  s_contour : contour fc past = segs;
  s_units : current_units past = u;
  s_apertures : forall k d s, In (k, d) F -> key_is k s -> aperture_of d past = Some (mkObj s None Dark u);
  s_polarity : current_polarity past = or_else (c_pol c) Dark;
  s_point : forall p, c_pos c = Some p -> current_point past = p;
  s_motion : c_func c = Some (T "G01") -> current_motion past = Straight;
  s_quadrant : forall q, c_quad c = Some q -> current_quadrant past = q;
  s_selection : forall d, c_dcode c = Some d -> current_selection past = d }.

Definition adv (past : list stmt) (c c' : ctx) (ms : list mark) (past' : list stmt) : Prop :=
  exists l, c_body c' = c_body c ++ l /\ past' = rev l ++ past /\ image fc past l = Some ms.
Lemma image_app : forall a past b m1 m2, image fc past a = Some m1 -> image fc (rev a ++ past) b = Some m2 -> image fc past (a ++ b) = Some (m1 ++ m2).
Proof.
  induction a as [|s a IH]; intros past b m1 m2 H1 H2.
  - injection H1 as <-. exact H2.
  - cbn [image app] in *. destruct (marks fc past s) as [m|]; [|discriminate]. destruct (image fc (s :: past) a) as [m'|] eqn:E; [|discriminate].
    injection H1 as <-. cbn [rev] in H2. rewrite <- app_assoc in H2. rewrite (IH _ _ _ _ E H2). now rewrite app_assoc.
Qed.
Lemma adv_refl past c c' : c_body c' = c_body c -> adv past c c' [] past.
Proof. intro E. exists []. rewrite app_nil_r. auto. Qed.
Lemma adv_trans past c past1 c1 past2 c2 m1 m2 : adv past c c1 m1 past1 -> adv past1 c1 c2 m2 past2 -> adv past c c2 (m1 ++ m2) past2.
Proof.
  intros (l & B & P & I) (l' & B' & P' & I'). exists (l ++ l'). rewrite B', B, app_assoc. split; [reflexivity|].
  subst past1 past2. rewrite rev_app_distr, app_assoc. split; [reflexivity|]. now apply image_app.
Qed.
Lemma adv_one past c c' s ms : c_body c' = c_body c ++ [s] -> marks fc past s = Some ms -> adv past c c' ms (s :: past).
Proof. intros B M. exists [s]. split; [exact B|]. split; [reflexivity|]. cbn [image]. rewrite M. now rewrite app_nil_r. Qed.

(** Statements that only set something. *)
Definition setter (s : stmt) : bool := match s with SAp _ _ | SLP _ | SQuad _ | SCom _ => true | _ => false end.
Lemma setter_facts past s : setter s = true ->
  marks fc past s = Some [] /\ contour fc (s :: past) = contour fc past /\ in_region (s :: past) = in_region past /\
  current_units (s :: past) = current_units past /\ (forall d, aperture_of d (s :: past) = aperture_of d past) /\
  current_point (s :: past) = current_point past /\ current_motion (s :: past) = current_motion past.
Proof.
  intro S. destruct s; try discriminate; cbn [contour action]; (split; [reflexivity|]); (split; [destruct (in_region past); reflexivity|]); repeat (split; [reflexivity|]); reflexivity.
Qed.
Lemma set_step r segs past c c' s : sync r segs past c -> setter s = true -> c_body c' = c_body c ++ [s] ->
  c_pos c' = c_pos c -> c_func c' = c_func c -> current_polarity (s :: past) = or_else (c_pol c') Dark ->
  (forall q, c_quad c' = Some q -> current_quadrant (s :: past) = q) -> (forall d, c_dcode c' = Some d -> current_selection (s :: past) = d) ->
  exists past', adv past c c' [] past' /\ sync r segs past' c'.
Proof.
  intros [S1 S2 S3 S4 S5 S6 S7 S8 S9] ST B P FN PL Q D. destruct (setter_facts past s ST) as (M & C & R & U & A & PT & MO).
  exists (s :: past). split; [now apply adv_one|]. split; rewrite ?C, ?R, ?U, ?PT, ?MO, ?P, ?FN; auto.
  intros k d sh I K. rewrite A. eauto.
Qed.
Lemma sync_weaken r segs past c c' : sync r segs past c -> c_pol c' = c_pol c -> c_pos c' = c_pos c -> (c_func c' = Some (T "G01") -> current_motion past = Straight) ->
  c_quad c' = c_quad c -> c_dcode c' = c_dcode c -> sync r segs past c'.
Proof. intros [S1 S2 S3 S4 S5 S6 S7 S8 S9] E1 E2 E3 E4 E5. split; rewrite ?E1, ?E2, ?E4, ?E5; auto. Qed.

Lemma sync_polarity r segs past c p d : sync r segs past c ->
  exists past', adv past c (level_polarity p d c) [] past' /\ sync r segs past' (level_polarity p d c) /\
    current_polarity past' = or_else p (or_else d Dark).
Proof.
  intro S. unfold level_polarity. set (q := match p with Some _ => p | None => d end).
  assert (Q : or_else q Dark = or_else p (or_else d Dark)) by (unfold q; destruct p, d; reflexivity).
  destruct (pol_eq q (c_pol c)) eqn:E.
  - apply pol_eq_iff in E. exists past. split; [now apply adv_refl|]. split; [exact S|]. rewrite (s_polarity _ _ _ _ S), <- E. exact Q.
  - assert (PO : current_polarity (SLP (match q with Some p => p | None => Dark end) :: past) = or_else q Dark) by (destruct q; reflexivity).
    set (c' := with_pol q (emit [SLP (match q with Some p => p | None => Dark end)] c)).
    exists (SLP (match q with Some p => p | None => Dark end) :: past).
    destruct S as [S1 S2 S3 S4 S5 S6 S7 S8 S9]. destruct (setter_facts past (SLP (match q with Some p => p | None => Dark end)) eq_refl) as (M & C & R & U & A & PT & MO).
    split; [now apply adv_one|]. split; [|now rewrite PO]. split; rewrite ?C, ?R, ?U, ?PT, ?MO; auto.
Qed.
Lemma sync_select r segs past c d : sync r segs past c ->
  exists past', adv past c (select d c) [] past' /\ sync r segs past' (select d c) /\ current_selection past' = d.
Proof.
  intro S.
  assert (G : c_dcode c <> Some d -> exists past', adv past c (with_dcode (Some d) (emit [SAp d false] c)) [] past' /\ sync r segs past' (with_dcode (Some d) (emit [SAp d false] c)) /\ current_selection past' = d).
  { intros _. exists (SAp d false :: past). destruct S as [S1 S2 S3 S4 S5 S6 S7 S8 S9]. destruct (setter_facts past (SAp d false) eq_refl) as (M & C & R & U & A & PT & MO).
    split; [now apply adv_one|]. split; [|reflexivity]. split; rewrite ?C, ?R, ?U, ?PT, ?MO; auto.
    intros d' [= ->]. reflexivity. }
  unfold select. destruct (c_dcode c) as [d'|] eqn:E; [|apply G; discriminate]. destruct (d =? d')%Z eqn:Ez.
  - apply Z.eqb_eq in Ez as <-. exists past. split; [now apply adv_refl|]. split; [exact S|]. now apply (s_selection _ _ _ _ S).
  - apply G. apply Z.eqb_neq in Ez. congruence.
Qed.
Lemma get_sync r segs past k c : sync r segs past c -> let (d, c') := get_aperture k None c in
  adv past c c' [] past /\ sync r segs past c' /\ In (k, d) (c_table c') /\ incl (c_table c) (c_table c').
Proof.
  intro S. unfold get_aperture. destruct (kget k (c_table c)) as [d|] eqn:E.
  - split; [now apply adv_refl|]. split; [exact S|]. split; [now apply kget_in|apply incl_refl].
  - cbn [c_table]. split; [now apply adv_refl|]. split; [|split; [apply in_or_app; right; now left|apply incl_appl, incl_refl]].
    eapply sync_weaken; [exact S|reflexivity..| | |]; try reflexivity. exact (s_motion _ _ _ _ S).
Qed.
(** The aperture a stroke is drawn with. *)
Definition chosen (ap : option figure) (past : list stmt) : Prop :=
  aperture_reads u ap (aperture_of (current_selection past) past) /\ (ap <> None -> aperture_of (current_selection past) past <> None).
Lemma hole_none h : hole_is h 0 0 0 -> hole_is no_holes 0 0 0.
Proof. intros _. left. unfold absent. tauto. Qed.
Lemma sync_use r segs past c k s : sync r segs past c -> key_is k s -> incl (c_table (let (d, c1) := get_aperture k None c in select d c1)) F ->
  exists past', adv past c (let (d, c1) := get_aperture k None c in select d c1) [] past' /\ sync r segs past' (let (d, c1) := get_aperture k None c in select d c1) /\
    aperture_of (current_selection past') past' = Some (mkObj s None Dark u).
Proof.
  intros S K I. pose proof (get_sync r segs past k c S) as G. destruct (get_aperture k None c) as [d c1]. destruct G as (A1 & S1 & J & _).
  destruct (sync_select r segs past c1 d S1) as (past' & A2 & S2 & D). exists past'. split; [apply (adv_trans _ _ _ _ _ _ [] [] A1 A2)|]. split; [exact S2|].
  rewrite D. apply (s_apertures _ _ _ _ S2) with k; [|exact K]. apply I. unfold select. destruct (c_dcode c1); [destruct (d =? z)%Z|]; exact J.
Qed.
Lemma sync_aperture r segs past c ap c' : sync r segs past c -> (forall f, ap = Some f -> drawable f) -> select_aperture ap c = Ok c' -> incl (c_table c') F ->
  exists past', adv past c c' [] past' /\ sync r segs past' c' /\ chosen ap past'.
Proof.
  intros S D H I.
  assert (G : forall f k s, ap = Some f -> figure_is f s -> key_is k s -> c' = (let (d, c1) := get_aperture k None c in select d c1) ->
     exists past', adv past c c' [] past' /\ sync r segs past' c' /\ chosen ap past').
  { intros f k s EA FI K ->. destruct (sync_use r segs past c k s S K I) as (past' & A & S' & E). exists past'. split; [exact A|]. split; [exact S'|].
    split; [|rewrite E; discriminate]. intros g Eg. rewrite EA in Eg. injection Eg as <-. exists s. split; [exact FI|exact E]. }
  destruct ap as [f|].
  - specialize (D f eq_refl). destruct f as [d h|w h hs t|w h hs t|n rr t hs]; cbn [drawable] in D; cbn [select_aperture] in H.
    + destruct D as (a & b & x & HI). apply (G (FCircle d h) (KCircle d h) (ShCircle d a b x)); try (split; [reflexivity|exact HI]); [reflexivity|].
      destruct (get_aperture _ None c). now apply ok_inj in H.
    + destruct D as [-> HI]. apply (G (FRect w h hs 0) (KRect w h no_holes) (ShRect w h 0 0 0)); [reflexivity|cbn; auto|cbn; split; [|split]; auto; now apply hole_none in HI|].
      destruct (get_aperture _ None c). now apply ok_inj in H.
    + destruct D as [-> HI]. apply (G (FObround w h hs 0) (KObround w h no_holes) (ShObround w h 0 0 0)); [reflexivity|cbn; auto|cbn; split; [|split]; auto; now apply hole_none in HI|].
      destruct (get_aperture _ None c). now apply ok_inj in H.
    + contradiction.
  - apply ok_inj in H as <-. exists past. split; [now apply adv_refl|]. split; [exact S|]. split; [discriminate|congruence].
Qed.

(** ** Coordinates *)
Lemma target_simplify r segs past c p f i j op : sync r segs past c ->
  target past (SCoord f (fst (simplify_point p c)) (snd (simplify_point p c)) i j op) = p.
Proof.
  intro S. unfold target, simplify_point. destruct (c_pos c) as [q|] eqn:E; [|destruct p; reflexivity].
  rewrite (s_point _ _ _ _ S _ E). cbn [fst snd]. destruct p as [x y], q as [x' y']. cbn [fst snd].
  destruct (qceq_spec x x') as [->|], (qceq_spec y y') as [->|]; reflexivity.
Qed.
Definition motion_after (s : stmt) (past : list stmt) : motion := or_else (sets_motion s) (current_motion past).
Lemma sync_move r segs past c c' a f : sync r segs past c -> (r = On -> segs = []) -> 
  let s := coord_stmt f (simplify_point a c) "D02" in
  c_body c' = c_body c ++ [s] -> c_pos c' = Some a -> c_pol c' = c_pol c -> c_quad c' = c_quad c -> c_dcode c' = c_dcode c ->
  (c_func c' = Some (T "G01") -> motion_after s past = Straight) ->
  adv past c c' [] (s :: past) /\ sync r segs (s :: past) c'.
Proof.
  intros S SE s B P PL Q D M. pose proof (target_simplify r segs past c a f None None (Some (T "D02")) S) as TG. fold s in TG.
  assert (A : action past s = Move) by (unfold s, coord_stmt, action; destruct f, (simplify_point a c) as [[|] [|]]; reflexivity).
  destruct S as [S1 S2 S3 S4 S5 S6 S7 S8 S9].
  assert (MK : marks fc past s = Some []).
  { unfold s, coord_stmt. rewrite marks_coord. cbv zeta. fold (coord_stmt f (simplify_point a c) "D02"). fold s. rewrite A, S1.
    destruct r; [|reflexivity]. rewrite S2, (SE eq_refl). reflexivity. }
  split; [now apply adv_one|]. split; rewrite ?PL, ?Q, ?D; auto.
  - unfold s, coord_stmt. rewrite contour_cons. fold (coord_stmt f (simplify_point a c) "D02"). fold s. rewrite A, S1.
    destruct r; [now rewrite (SE eq_refl)|exact S2].
  - intros p Ep. rewrite P in Ep. injection Ep as <-. unfold s, coord_stmt. rewrite target_point. exact TG.
  - intro X. rewrite motion_cons, A. exact (M X).
Qed.
Definition outcome (r : onoff) (v : vseg) : list mark := match r with Off => [Stroke v] | On => [] end.
Definition extended (r : onoff) (segs : list vseg) (v : vseg) : list vseg := match r with Off => segs | On => segs ++ [v] end.
Lemma sync_draw r segs past c c' b f x y i j : sync r segs past c ->
  let s := SCoord f x y i j (Some (T "D01")) in
  target past s = b -> (r = Off -> aperture_of (current_selection past) past <> None) ->
  c_body c' = c_body c ++ [s] -> c_pos c' = Some b -> c_pol c' = c_pol c -> c_quad c' = c_quad c -> c_dcode c' = c_dcode c ->
  (c_func c' = Some (T "G01") -> motion_after s past = Straight) ->
  let v := path fc past s (aperture_of (current_selection past) past) in
  adv past c c' (outcome r v) (s :: past) /\ sync r (extended r segs v) (s :: past) c'.
Proof.
  intros S s T0 AP B P PL Q D M v.
  assert (A : action past s = Draw) by (unfold s, action; destruct f, x, y, i, j; reflexivity).
  destruct S as [S1 S2 S3 S4 S5 S6 S7 S8 S9].
  assert (MK : marks fc past s = Some (outcome r v)).
  { unfold s. rewrite marks_coord. cbv zeta. fold s. rewrite A, S1. destruct r; [reflexivity|].
    unfold v. destruct (aperture_of (current_selection past) past) eqn:E; [reflexivity|]. exfalso. now apply (AP eq_refl). }
  split; [now apply adv_one|]. split; rewrite ?PL, ?Q, ?D; auto.
  - unfold s. rewrite contour_cons. fold s. rewrite A, S1. destruct r; [|exact S2]. unfold v. now rewrite S2.
  - intros p Ep. rewrite P in Ep. injection Ep as <-. unfold s. rewrite target_point. exact T0.
  - intro X. rewrite motion_cons, A, S1. destruct r; [reflexivity|exact (M X)].
Qed.
Lemma simplify_moves p q c : c_pos c = Some q -> q <> p -> simplify_point p c <> (None, None).
Proof.
  intros E N. unfold simplify_point. rewrite E. destruct (qceq_spec (fst p) (fst q)), (qceq_spec (snd p) (snd q)); try discriminate.
  exfalso. apply N. destruct p, q; cbn in *; congruence.
Qed.
Lemma chosen_same ap past past' : chosen ap past -> (forall d, aperture_of d past' = aperture_of d past) -> current_selection past' = current_selection past -> chosen ap past'.
Proof. intros [H1 H2] A S. unfold chosen. now rewrite A, S. Qed.
Lemma finish_sync r segs past c a b f ap pol : sync r segs past c -> c_pos c = Some a -> a <> b ->
  (f = None \/ f = Some (T "G01")) -> or_else (match f with Some _ => Some Straight | None => None end) (current_motion past) = Straight ->
  chosen ap past -> (r = Off -> ap <> None) -> current_polarity past = pol ->
  let c' := finish_line b f (with_func (Some (T "G01")) c) in
  exists v past', adv past c c' (outcome r v) past' /\ sync r (extended r segs v) past' c' /\
    (exists o, v = VLine a b o pol u /\ aperture_reads u ap o) /\ current_polarity past' = pol.
Proof.
  intros S P N Fv M [CH1 CH2] AP PO c'. pose proof (simplify_moves b a c P N) as NN.
  set (s := coord_stmt f (simplify_point b c) "D01").
  assert (E : c' = with_pos (Some b) (emit [s] (with_func (Some (T "G01")) c))).
  { unfold c', finish_line. change (simplify_point b (with_func (Some (T "G01")) c)) with (simplify_point b c). unfold s. destruct (simplify_point b c) as [[x|] [y|]]; try reflexivity. congruence. }
  rewrite E.
  assert (SM : or_else (sets_motion s) (current_motion past) = Straight) by (destruct Fv as [-> | ->]; exact M).
  destruct (sync_draw r segs past c (with_pos (Some b) (emit [s] (with_func (Some (T "G01")) c))) b f (fst (simplify_point b c)) (snd (simplify_point b c)) None None S) as [A1 S1]; try reflexivity.
  - eapply target_simplify. exact S.
  - intro R. apply CH2. now apply AP.
  - intros _. exact SM.
  - eexists _, _. split; [exact A1|]. split; [exact S1|]. split; [|exact PO].
    exists (aperture_of (current_selection past) past). split; [|exact CH1]. unfold path. cbn [fst snd].
    change (SCoord f (fst (simplify_point b c)) (snd (simplify_point b c)) None None (Some (T "D01"))) with s. rewrite SM.
    rewrite (s_point _ _ _ _ S _ P), PO, (s_units _ _ _ _ S). f_equal. eapply target_simplify. exact S.
Qed.
(** Facts about the helper functions that do not touch a field. *)
Lemma polarity_pos p d c : c_pos (level_polarity p d c) = c_pos c.
Proof. unfold level_polarity. destruct (pol_eq _ _); reflexivity. Qed.
Lemma polarity_table p d c : c_table (level_polarity p d c) = c_table c.
Proof. unfold level_polarity. destruct (pol_eq _ _); reflexivity. Qed.
Lemma polarity_quad p d c : c_quad (level_polarity p d c) = c_quad c.
Proof. unfold level_polarity. destruct (pol_eq _ _); reflexivity. Qed.
Lemma aperture_pos ap c c1 : select_aperture ap c = Ok c1 -> c_pos c1 = c_pos c /\ c_quad c1 = c_quad c.
Proof.
  intro E. destruct ap as [[]|]; cbn [select_aperture] in E; try discriminate; [| | |apply ok_inj in E as <-; auto];
    unfold get_aperture in E; (destruct (kget _ _); apply ok_inj in E as <-; unfold select; cbn; destruct (c_dcode c); try destruct (_ =? _)%Z; auto).
Qed.
Lemma finish_table b f c : c_table (finish_line b f c) = c_table c.
Proof. unfold finish_line. destruct (simplify_point _ c) as [[|] [|]]; try reflexivity; destruct f; reflexivity. Qed.
Lemma chosen_polarity ap p d c past past' : adv past c (level_polarity p d c) [] past' -> chosen ap past -> chosen ap past'.
Proof.
  intros (l & B & -> & _) CH. unfold level_polarity in B. destruct (pol_eq _ _) in B.
  - assert (l = []) as -> by (apply (app_inv_head (c_body c)); rewrite app_nil_r; now rewrite <- B). exact CH.
  - apply app_inv_head in B as <-. exact CH.
Qed.
Lemma line_sync r segs past c a b ap pol dflt c' : sync r segs past c -> (r = On -> segs = [] \/ c_pos c = Some a) -> a <> b ->
  (forall f, ap = Some f -> drawable f) -> (r = Off -> ap <> None) ->
  render_line a b ap pol dflt c = Ok c' -> incl (c_table c') F ->
  exists v past', adv past c c' (outcome r v) past' /\ sync r (extended r segs v) past' c' /\
    stroke_reads u (or_else dflt Dark) (WLine a b ap pol) v /\ c_pos c' = Some b /\ current_polarity past' = or_else pol (or_else dflt Dark).
Proof.
  intros S CO N DR AP H I. unfold render_line in H. destruct (select_aperture ap c) as [c1|] eqn:E; [|discriminate]. cbn [bind] in H. apply ok_inj in H.
  assert (FP : forall f c2, c_pos c2 = Some a -> c_pos (finish_line b f c2) = Some b).
  { intros f c2 P2. pose proof (simplify_moves b a c2 P2 N). unfold finish_line. destruct (simplify_point b c2) as [[|] [|]]; try reflexivity. congruence. }
  destruct (aperture_pos _ _ _ E) as [P1 _].
  assert (I1 : incl (c_table c1) F).
  { intros x J. apply I. rewrite <- H. destruct (is_here _ _); rewrite finish_table; cbn; rewrite polarity_table; exact J. }
  destruct (sync_aperture r segs past c ap c1 S DR E I1) as (p1 & A1 & S1 & CH).
  destruct (sync_polarity r segs p1 c1 pol dflt S1) as (p2 & A2 & S2 & PO).
  pose proof (chosen_polarity _ _ _ _ _ _ A2 CH) as CH2.
  set (c2 := level_polarity pol dflt c1) in *. set (f := if is_func "G01" c2 then None else Some (T "G01")) in *.
  assert (Fv : f = None \/ f = Some (T "G01")) by (unfold f; destruct (is_func _ _); auto).
  assert (FM : or_else (match f with Some _ => Some Straight | None => None end) (current_motion p2) = Straight).
  { unfold f, is_func. destruct (c_func c2) as [g|] eqn:G; [|reflexivity]. destruct (teq g (T "G01")) eqn:TE; [|reflexivity].
    apply (s_motion _ _ _ _ S2). rewrite G. f_equal. now apply teq_true. }
  set (c3 := with_func (Some (T "G01")) c2) in *.
  assert (P2 : c_pos c2 = c_pos c) by (unfold c2; rewrite polarity_pos; exact P1).
  assert (A12 := adv_trans _ _ _ _ _ _ [] [] A1 A2). cbn [app] in A12.
  destruct (is_here a c3) eqn:HR.
  - assert (Pa : c_pos c2 = Some a). { unfold is_here in HR. change (c_pos c3) with (c_pos c2) in HR. destruct (c_pos c2) as [q|] eqn:Q; [|discriminate]. apply pt_eq_iff in HR as ->. reflexivity. }
    destruct (finish_sync r segs p2 c2 a b f ap _ S2 Pa N Fv FM CH2 AP PO) as (v & p3 & A3 & S3 & (o & -> & AR) & PO3).
    fold c3 in A3, S3. rewrite H in A3, S3. eexists _, p3. split; [exact (adv_trans _ _ _ _ _ _ _ _ A12 A3)|]. split; [exact S3|].
    split; [cbn; auto 10|]. split; [rewrite <- H; now apply FP|exact PO3].
  - set (s := coord_stmt f (simplify_point a c3) "D02") in *. set (c4 := with_pos (Some a) (emit [s] c3)) in *.
    assert (SE : r = On -> segs = []).
    { intro R. destruct (CO R) as [|Pa]; [assumption|]. exfalso. unfold is_here in HR. change (c_pos c3) with (c_pos c2) in HR. rewrite P2, Pa in HR.
      assert (pt_eq a a = true) by now apply pt_eq_iff. congruence. }
    assert (SM : motion_after s p2 = Straight) by (destruct Fv as [Ef|Ef]; unfold motion_after, s; rewrite Ef in *; exact FM).
    destruct (sync_move r segs p2 c2 c4 a f S2 SE eq_refl eq_refl eq_refl eq_refl eq_refl (fun _ => SM)) as [A3 S3].
    change (coord_stmt f (simplify_point a c2) "D02") with s in A3, S3.
    assert (MO : current_motion (s :: p2) = Straight) by (apply (s_motion _ _ _ _ S3); reflexivity).
    assert (CH3 : chosen ap (s :: p2)) by exact CH2.
    destruct (finish_sync r segs (s :: p2) c4 a b None ap _ S3 eq_refl N (or_introl eq_refl) MO CH3 AP PO) as (v & p3 & A4 & S4 & (o & -> & AR) & PO3).
    change (with_func (Some (T "G01")) c4) with c4 in A4, S4. rewrite H in A4, S4.
    eexists _, p3. split; [exact (adv_trans _ _ _ _ _ _ _ _ (adv_trans _ _ _ _ _ _ _ _ A12 A3) A4)|]. split; [exact S4|].
    split; [cbn; auto 10|]. split; [rewrite <- H; now apply FP|exact PO3].
Qed.
Lemma offset_diff cen a : simplify_offset cen a = (fst cen - fst a, snd cen - snd a).
Proof.
  unfold simplify_offset. destruct (qceq_spec (fst cen) (fst a)) as [->|], (qceq_spec (snd cen) (snd a)) as [->|]; f_equal; ring.
Qed.
Lemma motion_code_dir dir : motion_code (match dir with Clockwise => T "G02" | Counterclockwise => T "G03" end) = Some (match dir with Clockwise => Clockwise_arc | Counterclockwise => Counterclockwise_arc end).
Proof. destruct dir; reflexivity. Qed.
Lemma arc_sync r segs past c a b cen dir ap q pol dflt c' : sync r segs past c -> (r = On -> segs = [] \/ c_pos c = Some a) ->
  supported_stroke fc (WArc a b cen dir ap q pol) -> (r = Off -> ap <> None) ->
  render_arc a b cen dir ap q pol dflt c = Ok c' -> incl (c_table c') F ->
  exists v past', adv past c c' (outcome r v) past' /\ sync r (extended r segs v) past' c' /\
    stroke_reads u (or_else dflt Dark) (WArc a b cen dir ap q pol) v /\ c_pos c' = Some b /\ current_polarity past' = or_else pol (or_else dflt Dark).
Proof.
  intros S CO [DR CE] AP H I. cbn [aperture_of_stroke] in DR. unfold render_arc in H.
  set (c0 := if match c_quad c with Some q' => quad_eq q q' | None => false end then c else with_cquad (Some q) (emit [SQuad q] c)) in *.
  assert (Q0 : c_quad c0 = Some q /\ c_pos c0 = c_pos c /\ c_table c0 = c_table c).
  { unfold c0. destruct (match c_quad c with Some q' => quad_eq q q' | None => false end) eqn:X; [|auto]. destruct (c_quad c) as [q'|]; [|discriminate]. destruct q, q'; try discriminate; auto. }
  assert (G0 : exists p0, adv past c c0 [] p0 /\ sync r segs p0 c0).
  { unfold c0. destruct (match c_quad c with Some q' => quad_eq q q' | None => false end); [exists past; split; [now apply adv_refl|exact S]|].
    apply (set_step r segs past c _ (SQuad q) S); try reflexivity.
    - exact (s_polarity _ _ _ _ S).
    - intros q' [= <-]. reflexivity.
    - exact (s_selection _ _ _ _ S). }
  destruct G0 as (p0 & A0 & S0). destruct Q0 as (Q0 & P0 & _).
  destruct (select_aperture ap c0) as [c1|] eqn:E; [|discriminate]. cbn [bind] in H.
  destruct (aperture_pos _ _ _ E) as [P1 Q1].
  set (c2 := level_polarity pol dflt c1) in *. set (f := match dir with Clockwise => T "G02" | Counterclockwise => T "G03" end) in *.
  set (c3 := with_func (Some f) c2) in *.
  set (c4 := if is_here a c3 then c3 else with_pos (Some a) (emit [coord_stmt (Some (T "G01")) (simplify_point a c3) "D02"] c3)) in *.
  rewrite offset_diff in H. destruct (simplify_point b c4) as [x y] eqn:SP. apply ok_inj in H.
  assert (T4 : c_table c4 = c_table c1) by (unfold c4; destruct (is_here a c3); cbn; unfold c2; now rewrite polarity_table).
  assert (I1 : incl (c_table c1) F) by (intros z J; apply I; rewrite <- H; cbn; rewrite T4; exact J).
  destruct (sync_aperture r segs p0 c0 ap c1 S0 DR E I1) as (p1 & A1 & S1 & CH).
  destruct (sync_polarity r segs p1 c1 pol dflt S1) as (p2 & A2 & S2 & PO). fold c2 in A2, S2.
  pose proof (chosen_polarity _ _ _ _ _ _ A2 CH) as CH2.
  assert (A02 := adv_trans _ _ _ _ _ _ [] [] (adv_trans _ _ _ _ _ _ [] [] A0 A1) A2). cbn [app] in A02.
  assert (P2 : c_pos c2 = c_pos c) by (unfold c2; rewrite polarity_pos; congruence).
  assert (NG : Some f <> Some (T "G01")) by (unfold f; destruct dir; discriminate).
  assert (G4 : exists p4, adv p2 c2 c4 [] p4 /\ sync r segs p4 c4 /\ chosen ap p4 /\ current_polarity p4 = or_else pol (or_else dflt Dark) /\ c_pos c4 = Some a).
  { unfold c4. destruct (is_here a c3) eqn:HR.
    - exists p2. split; [now apply adv_refl|]. split; [apply (sync_weaken _ _ _ c2); try reflexivity; [exact S2|intro X; exfalso; now apply NG]|]. split; [exact CH2|]. split; [exact PO|].
      unfold is_here in HR. destruct (c_pos c3) as [z|]; [|discriminate]. apply pt_eq_iff in HR as ->. reflexivity.
    - set (s := coord_stmt (Some (T "G01")) (simplify_point a c3) "D02").
      assert (SE : r = On -> segs = []).
      { intro R. destruct (CO R) as [|Pa]; [assumption|]. exfalso. unfold is_here in HR. change (c_pos c3) with (c_pos c2) in HR. rewrite P2, Pa in HR.
        assert (pt_eq a a = true) by now apply pt_eq_iff. congruence. }
      destruct (sync_move r segs p2 c2 (with_pos (Some a) (emit [s] c3)) a (Some (T "G01")) S2 SE eq_refl eq_refl eq_refl eq_refl eq_refl (fun _ => eq_refl)) as [A3 S3].
      exists (s :: p2). split; [exact A3|]. split; [exact S3|]. split; [exact CH2|]. split; [exact PO|reflexivity]. }
  destruct G4 as (p4 & A4 & S4 & [CH41 CH42] & PO4 & P4).
  set (s := SCoord (Some f) x y (Some (fst cen - fst a)) (Some (snd cen - snd a)) (Some (T "D01"))) in *.
  assert (TG : target p4 s = b).
  { pose proof (target_simplify r segs p4 c4 b (Some f) (Some (fst cen - fst a)) (Some (snd cen - snd a)) (Some (T "D01")) S4) as TG. rewrite SP in TG. exact TG. }
  destruct (sync_draw r segs p4 c4 c' b (Some f) x y (Some (fst cen - fst a)) (Some (snd cen - snd a)) S4 TG) as [A5 S5]; try (rewrite <- H; reflexivity).
  - intro R. apply CH42. now apply AP.
  - intro X. exfalso. apply NG. rewrite <- X, <- H. cbn. unfold c4. destruct (is_here a c3); reflexivity.
  - fold s in A5, S5. exists (path fc p4 s (aperture_of (current_selection p4) p4)), (s :: p4).
    split; [exact (adv_trans _ _ _ _ _ _ _ _ (adv_trans _ _ _ _ _ _ [] [] A02 A4) A5)|]. split; [exact S5|].
    split; [|split; [rewrite <- H; reflexivity|exact PO4]].
    assert (Qd : current_quadrant p4 = q).
    { apply (s_quadrant _ _ _ _ S4). unfold c4. destruct (is_here a c3); cbn; unfold c2; rewrite polarity_quad; congruence. }
    unfold path. unfold s at 1. cbn [sets_motion]. unfold f. rewrite motion_code_dir. fold f. cbn [or_else].
    rewrite (s_point _ _ _ _ S4 _ P4), TG, PO4, (s_units _ _ _ _ S4), Qd. unfold s. cbn [or_else fst snd].
    assert (CC : match q with MultiQ => Some (fst a + (fst cen - fst a), snd a + (snd cen - snd a)) | SingleQ => fc dir a b (fst cen - fst a, snd cen - snd a) end = Some cen).
    { destruct q; [exact CE|]. f_equal. destruct cen; cbn. f_equal; ring. }
    destruct dir; cbn; rewrite CC; auto 10.
Qed.
Lemma stroke_sync r segs past c s dflt c' : sync r segs past c -> (r = On -> segs = [] \/ c_pos c = Some (start_of s)) ->
  supported_stroke fc s -> (r = Off -> aperture_of_stroke s <> None) -> render_stroke s dflt c = Ok c' -> incl (c_table c') F ->
  exists v past', adv past c c' (outcome r v) past' /\ sync r (extended r segs v) past' c' /\
    stroke_reads u (or_else dflt Dark) s v /\ c_pos c' = Some (end_of s) /\ current_polarity past' = or_else (polarity_of_stroke s) (or_else dflt Dark).
Proof.
  intros S CO SU AP H I. destruct s as [a b ap pol|a b cen d ap q pol]; cbn [start_of end_of aperture_of_stroke polarity_of_stroke render_stroke] in *.
  - destruct SU as [DR N]. now apply (line_sync r segs past c a b ap pol dflt c').
  - now apply (arc_sync r segs past c a b cen d ap q pol dflt c').
Qed.
Lemma strokes_sync pol P l : or_else pol Dark = P -> Forall (supported_stroke fc) l ->
  Forall (fun s => polarity_of_stroke s = None \/ polarity_of_stroke s = Some P) l -> connected l ->
  forall segs past c c', sync On segs past c -> (segs = [] \/ match l with s :: _ => c_pos c = Some (start_of s) | [] => True end) ->
  current_polarity past = P -> render_strokes l pol c = Ok c' -> incl (c_table c') F ->
  exists vs past', adv past c c' [] past' /\ sync On (segs ++ vs) past' c' /\ Forall2 (stroke_reads u P) l vs /\ current_polarity past' = P.
Proof.
  intros EP. induction l as [|s l IH]; intros SU PO CN segs past c c' S CO CP H I; cbn [render_strokes] in H.
  - apply ok_inj in H as <-. exists [], past. rewrite app_nil_r. split; [now apply adv_refl|]. split; [exact S|]. split; [constructor|exact CP].
  - inversion SU as [|? ? SU1 SU2]; subst. inversion PO as [|? ? PO1 PO2]; subst. destruct (render_stroke s pol c) as [c1|] eqn:E; [|discriminate]. cbn [bind] in H.
    pose proof (grown_incl _ _ (grown_strokes l pol c1 c' H)) as J1.
    assert (I1 : incl (c_table c1) F) by (eapply incl_tran; eassumption).
    destruct (stroke_sync On segs past c s pol c1 S (fun _ => CO) SU1 ltac:(discriminate) E I1) as (v & p1 & A1 & S1 & R1 & Q1 & C1).
    cbn [outcome extended] in A1, S1.
    assert (C1' : current_polarity p1 = or_else pol Dark) by (rewrite C1; destruct PO1 as [-> | ->]; reflexivity).
    assert (CN' : connected l) by (destruct l; [exact Logic.I|apply CN]).
    assert (CO' : segs ++ [v] = [] \/ match l with s :: _ => c_pos c1 = Some (start_of s) | [] => True end).
    { right. destruct l as [|t l]; [exact Logic.I|]. rewrite Q1. destruct CN as [-> _]. reflexivity. }
    destruct (IH SU2 PO2 CN' (segs ++ [v]) p1 c1 c' S1 CO' C1' H I) as (vs & p2 & A2 & S2 & R2 & C2).
    exists (v :: vs), p2. split; [exact (adv_trans _ _ _ _ _ _ [] [] A1 A2)|]. split; [now rewrite <- app_assoc in S2|]. split; [|exact C2].
    constructor; assumption.
Qed.
Lemma region_on past c : sync Off [] past c -> adv past c (emit [SReg On] c) [] (SReg On :: past) /\ sync On [] (SReg On :: past) (emit [SReg On] c).
Proof.
  intros [S1 S2 S3 S4 S5 S6 S7 S8 S9]. split; [now apply adv_one|]. split; auto.
  cbn [contour action]. rewrite S1. exact S2.
Qed.
Lemma region_off past c v vs : sync On (v :: vs) past c ->
  adv past c (emit [SReg Off] c) [Fill (v :: vs) (current_polarity past) u] (SReg Off :: past) /\ sync Off [] (SReg Off :: past) (emit [SReg Off] c).
Proof.
  intros [S1 S2 S3 S4 S5 S6 S7 S8 S9]. split; [|split; auto].
  apply adv_one; [reflexivity|]. cbn [marks]. rewrite S1, S2, S3. reflexivity.
Qed.
Lemma region_off_explicit past c v w vs : sync On (v :: w :: vs) past c ->
  let c' := emit [SReg Off] (emit [SCoord None None None None None (Some (T "D02"))] c) in
  exists past', adv past c c' [Fill (v :: w :: vs) (current_polarity past) u] past' /\ sync Off [] past' c'.
Proof.
  intros [S1 S2 S3 S4 S5 S6 S7 S8 S9] c'. set (s := SCoord None None None None None (Some (T "D02"))).
  exists (SReg Off :: s :: past). split.
  - exists [s; SReg Off]. split; [unfold c', emit; cbn [c_body]; now rewrite <- app_assoc|]. split; [reflexivity|].
    assert (M : marks fc past s = Some [Fill (v :: w :: vs) (current_polarity past) u]).
    { unfold s. rewrite marks_coord. cbv zeta. change (action past _) with Move. rewrite S1, S2, S3. reflexivity. }
    assert (M2 : marks fc (s :: past) (SReg Off) = Some []).
    { cbn [marks]. unfold s. rewrite contour_cons. change (action past _) with Move. rewrite S1. change (in_region _) with (in_region past). rewrite S1. reflexivity. }
    cbn [image]. rewrite M, M2. reflexivity.
  - split; auto.
Qed.
Lemma region_sync o past c l pol c' : sync Off [] past c ->
  l <> [] -> connected l -> Forall (supported_stroke fc) l ->
  Forall (fun s => polarity_of_stroke s = None \/ polarity_of_stroke s = Some (or_else pol Dark)) l ->
  (explicit_region_move_end o = true -> (2 <= List.length l)%nat) ->
  render_region o l pol c = Ok c' -> incl (c_table c') F ->
  exists vs past', adv past c c' [Fill vs (or_else pol Dark) u] past' /\ sync Off [] past' c' /\ Forall2 (stroke_reads u (or_else pol Dark)) l vs.
Proof.
  intros S N CN SU PO EX H I. unfold render_region in H.
  destruct (sync_polarity Off [] past c pol (Some Dark) S) as (p1 & A1 & S1 & PO1).
  set (c1 := level_polarity pol (Some Dark) c) in *.
  destruct (region_on p1 c1 S1) as [A2 S2].
  destruct (render_strokes l pol (emit [SReg On] c1)) as [c3|] eqn:E; [|discriminate]. cbn [bind] in H. apply ok_inj in H.
  assert (I3 : incl (c_table c3) F) by (intros x J; apply I; rewrite <- H; destruct (explicit_region_move_end o); exact J).
  assert (PO2 : current_polarity (SReg On :: p1) = or_else pol Dark) by exact PO1.
  destruct (strokes_sync pol _ l eq_refl SU PO CN [] (SReg On :: p1) _ c3 S2 (or_introl eq_refl) PO2 E I3) as (vs & p3 & A3 & S3 & R3 & PO3).
  cbn [app] in S3. assert (A13 := adv_trans _ _ _ _ _ _ _ _ (adv_trans _ _ _ _ _ _ _ _ A1 A2) A3). cbn [app] in A13.
  assert (LN : List.length l = List.length vs) by (clear - R3; induction R3; cbn; congruence). destruct (explicit_region_move_end o).
  - specialize (EX eq_refl). destruct vs as [|v [|w vs]]; [cbn in LN; lia|cbn in LN; lia|].
    destruct (region_off_explicit p3 c3 v w vs S3) as (p4 & A4 & S4). rewrite H in A4, S4. rewrite PO3 in A4.
    exists (v :: w :: vs), p4. split; [exact (adv_trans _ _ _ _ _ _ _ _ A13 A4)|]. split; [exact S4|exact R3].
  - destruct vs as [|v vs]; [destruct l; [congruence|discriminate]|].
    destruct (region_off p3 c3 v vs S3) as [A4 S4]. rewrite H in A4, S4. rewrite PO3 in A4.
    exists (v :: vs), (SReg Off :: p3). split; [exact (adv_trans _ _ _ _ _ _ _ _ A13 A4)|]. split; [exact S4|exact R3].
Qed.
Lemma stamp_step past c p x y c' s o : sync Off [] past c -> let st := SCoord None x y None None (Some (T "D03")) in
  target past st = p -> aperture_of (current_selection past) past = Some o -> o_shape o = s ->
  c_body c' = c_body c ++ [st] -> c_pos c' = Some p -> c_pol c' = c_pol c -> c_quad c' = c_quad c -> c_dcode c' = c_dcode c -> c_func c' = c_func c ->
  adv past c c' [Stamp (mkObj s (Some p) (current_polarity past) u)] (st :: past) /\ sync Off [] (st :: past) c'.
Proof.
  intros [S1 S2 S3 S4 S5 S6 S7 S8 S9] st TG AP SH B P PL Q D FN.
  assert (A : action past st = Flash) by (unfold st, action; destruct x, y; reflexivity).
  assert (M : marks fc past st = Some [Stamp (mkObj s (Some p) (current_polarity past) u)]).
  { unfold st. rewrite marks_coord. cbv zeta. fold st. rewrite A, AP, TG, SH, S3. reflexivity. }
  split; [now apply adv_one|]. split; rewrite ?PL, ?Q, ?D, ?FN; auto.
  - unfold st. rewrite contour_cons. fold st. rewrite A, S1. exact S2.
  - intros p' Ep. rewrite P in Ep. injection Ep as <-. unfold st. rewrite target_point. exact TG.
Qed.
Lemma polarity_keeps p d c past past' : adv past c (level_polarity p d c) [] past' -> forall n, aperture_of n past' = aperture_of n past.
Proof.
  intros (l & B & -> & _) n. unfold level_polarity in B. destruct (pol_eq _ _) in B.
  - assert (l = []) as -> by (apply (app_inv_head (c_body c)); rewrite app_nil_r; now rewrite <- B). reflexivity.
  - apply app_inv_head in B as <-. reflexivity.
Qed.
Lemma select_keeps d c past past' : adv past c (select d c) [] past' -> forall n, aperture_of n past' = aperture_of n past.
Proof.
  intros (l & B & -> & _) n. assert (G : c_body c = c_body c ++ l -> aperture_of n (rev l ++ past) = aperture_of n past).
  { intro X. assert (l = []) as -> by (apply (app_inv_head (c_body c)); rewrite app_nil_r; now rewrite <- X). reflexivity. }
  assert (G' : c_body c ++ [SAp d false] = c_body c ++ l -> aperture_of n (rev l ++ past) = aperture_of n past).
  { intro X. apply app_inv_head in X as <-. reflexivity. }
  unfold select in B. destruct (c_dcode c) as [d'|]; [destruct (d =? d')%Z|]; auto.
Qed.
Lemma flash_any o past c p pol d s : sync Off [] past c -> aperture_of d past = Some (mkObj s None Dark u) ->
  exists past', adv past c (render_flash o p pol d c) [Stamp (mkObj s (Some p) (or_else pol Dark) u)] past' /\ sync Off [] past' (render_flash o p pol d c).
Proof.
  intros S AP0. unfold render_flash. destruct (sync_polarity Off [] past c pol (Some Dark) S) as (p1 & A1 & S1 & PO1).
  set (c1 := level_polarity pol (Some Dark) c) in *. destruct (sync_select Off [] p1 c1 d S1) as (p2 & A2 & S2 & SE).
  assert (PO2 : current_polarity p2 = or_else pol Dark).
  { rewrite (s_polarity _ _ _ _ S2). assert (E : c_pol (select d c1) = c_pol c1) by (unfold select; destruct (c_dcode c1); [destruct (_ =? _)%Z|]; reflexivity).
    rewrite E. pose proof (s_polarity _ _ _ _ S1) as X. rewrite <- X. exact PO1. }
  set (c2 := select d c1) in *. assert (AP : aperture_of d p2 = Some (mkObj s None Dark u)) by (rewrite (select_keeps _ _ _ _ A2), (polarity_keeps _ _ _ _ _ A1); exact AP0). rewrite <- SE in AP.
  assert (A12 := adv_trans _ _ _ _ _ _ _ _ A1 A2). cbn [app] in A12.
  destruct (condensed_flash o).
  - destruct (stamp_step p2 c2 p (fst (simplify_point p c2)) (snd (simplify_point p c2)) (with_pos (Some p) (emit [coord_stmt None (simplify_point p c2) "D03"] c2)) s (mkObj s None Dark u) S2) as [A3 S3]; try reflexivity; try eassumption; try reflexivity.
    + eapply target_simplify. exact S2.
    + rewrite PO2 in A3. eexists. split; [exact (adv_trans _ _ _ _ _ _ _ _ A12 A3)|exact S3].
  - set (mv := coord_stmt None (simplify_point p c2) "D02"). set (c3 := with_pos (Some p) (emit [mv] c2)).
    destruct (sync_move Off [] p2 c2 c3 p None S2 ltac:(discriminate) eq_refl eq_refl eq_refl eq_refl eq_refl (fun X => s_motion _ _ _ _ S2 X)) as [A3 S3]. fold mv in A3, S3.
    set (c4 := with_pos (Some p) (emit [mv; SCoord None None None None None (Some (T "D03"))] c2)).
    destruct (stamp_step (mv :: p2) c3 p None None c4 s (mkObj s None Dark u) S3) as [A4 S4]; try reflexivity; try exact AP; try reflexivity.
    + unfold target. cbn [or_else]. rewrite <- surjective_pairing. exact (s_point _ _ _ _ S3 p eq_refl).
    + unfold c4, c3, emit. cbn [with_pos c_body]. now rewrite <- app_assoc.
    + change (current_polarity (mv :: p2)) with (current_polarity p2) in A4. rewrite PO2 in A4. eexists. split; [exact (adv_trans _ _ _ _ _ _ _ _ (adv_trans _ _ _ _ _ _ _ _ A12 A3) A4)|exact S4].
Qed.
Lemma flash_sync o past c p pol k d s : sync Off [] past c -> In (k, d) F -> key_is k s ->
  exists past', adv past c (render_flash o p pol d c) [Stamp (mkObj s (Some p) (or_else pol Dark) u)] past' /\ sync Off [] past' (render_flash o p pol d c).
Proof. intros S IK K. apply flash_any; [exact S|]. exact (s_apertures _ _ _ _ S k d s IK K). Qed.
Lemma render_sync o past c x c' : sync Off [] past c -> supported fc o x -> render o x c = Ok c' -> incl (c_table c') F ->
  exists m past', adv past c c' [m] past' /\ sync Off [] past' c' /\ reads_as u x m.
Proof.
  intros S SU H I. unfold render in H. unfold supported in SU. unfold reads_as.
  set (c0 := match i_comment x with Some t => emit [SCom t] c | None => c end) in *.
  assert (G0 : exists p0, adv past c c0 [] p0 /\ sync Off [] p0 c0).
  { unfold c0. destruct (i_comment x) as [t|]; [|exists past; split; [now apply adv_refl|exact S]].
    apply (set_step Off [] past c _ (SCom t) S); try reflexivity; [exact (s_polarity _ _ _ _ S)|exact (s_quadrant _ _ _ _ S)|exact (s_selection _ _ _ _ S)]. }
  destruct G0 as (p0 & A0 & S0). destruct (i_thing x) as [s|l pol|f p pol| |].
  - destruct SU as [SU AP]. destruct (stroke_sync Off [] p0 c0 s (Some Dark) c' S0 ltac:(discriminate) SU (fun _ => AP) H I) as (v & p1 & A1 & S1 & R1 & _).
    exists (Stroke v), p1. split; [exact (adv_trans _ _ _ _ _ _ _ _ A0 A1)|]. split; [exact S1|exact R1].
  - destruct SU as (N & CN & SS & PO & EX). destruct (region_sync o p0 c0 l pol c' S0 N CN SS PO EX H I) as (vs & p1 & A1 & S1 & R1).
    exists (Fill vs (or_else pol Dark) u), p1. split; [exact (adv_trans _ _ _ _ _ _ _ _ A0 A1)|]. split; [exact S1|]. auto.
  - destruct SU as [s FI]. pose proof (get_sync Off [] p0 (figure_key f) c0 S0) as G. destruct (get_aperture (figure_key f) None c0) as [d c1].
    destruct G as (A1 & S1 & IN & _). apply ok_inj in H.
    assert (T : c_table c' = c_table c1).
    { subst c'. unfold render_flash, select, level_polarity. destruct (pol_eq _ _), (condensed_flash o); cbn; destruct (c_dcode c1); try destruct (d =? z)%Z; reflexivity. }
    rewrite T in I. destruct (flash_sync o p0 c1 p pol (figure_key f) d s S1 (I _ IN) (figure_key_is _ _ FI)) as (p2 & A2 & S2). rewrite H in A2, S2.
    eexists _, p2. split; [exact (adv_trans _ _ _ _ _ _ _ _ (adv_trans _ _ _ _ _ _ _ _ A0 A1) A2)|]. split; [exact S2|]. cbn. exists s. auto.
  - contradiction.
  - contradiction.
Qed.
Lemma all_sync o l : Forall (supported fc o) l -> forall past c c', sync Off [] past c -> render_all o l c = Ok c' -> incl (c_table c') F ->
  exists ms past', adv past c c' ms past' /\ sync Off [] past' c' /\ Forall2 (reads_as u) l ms.
Proof.
  induction 1 as [|x l SX SL IH]; intros past c c' S H I; cbn [render_all] in H.
  - apply ok_inj in H as <-. exists [], past. split; [now apply adv_refl|]. split; [exact S|constructor].
  - destruct (render o x c) as [c1|] eqn:E; [|discriminate]. cbn [bind] in H. pose proof (grown_incl _ _ (grown_all o l c1 c' H)) as J.
    destruct (render_sync o past c x c1 S SX E ltac:(eapply incl_tran; eassumption)) as (m & p1 & A1 & S1 & R1).
    destruct (IH p1 c1 c' S1 H I) as (ms & p2 & A2 & S2 & R2). exists (m :: ms), p2. split; [exact (adv_trans _ _ _ _ _ _ _ _ A1 A2)|]. split; [exact S2|now constructor].
Qed.
End Sync.

(** ** Rendering what is supported never fails *)
Lemma drawable_ok ap c : (forall f, ap = Some f -> drawable f) -> exists c', select_aperture ap c = Ok c'.
Proof.
  intro D. destruct ap as [f|]; [|now exists c]. specialize (D f eq_refl). destruct f; cbn [select_aperture]; try (destruct (get_aperture _ None c); eexists; reflexivity). contradiction.
Qed.
Lemma stroke_ok fc s d c : supported_stroke fc s -> exists c', render_stroke s d c = Ok c'.
Proof.
  intros [D _]. destruct s as [a b ap pol|a b cen dir ap q pol]; cbn [render_stroke aperture_of_stroke] in *.
  - unfold render_line. destruct (drawable_ok ap c D) as [c1 ->]. cbn [bind]. eexists. reflexivity.
  - unfold render_arc. destruct (drawable_ok ap (if match c_quad c with Some q' => quad_eq q q' | None => false end then c else with_cquad (Some q) (emit [SQuad q] c)) D) as [c1 ->]. cbn [bind].
    destruct (simplify_offset cen a). destruct (simplify_point _ _). eexists. reflexivity.
Qed.
Lemma strokes_ok fc l d : Forall (supported_stroke fc) l -> forall c, exists c', render_strokes l d c = Ok c'.
Proof.
  induction 1 as [|s l S L IH]; intro c; [now exists c|]. cbn [render_strokes]. destruct (stroke_ok fc s d c S) as [c1 ->]. cbn [bind]. apply IH.
Qed.
Lemma render_ok fc o x c : supported fc o x -> exists c', render o x c = Ok c'.
Proof.
  unfold supported, render. set (c0 := match i_comment x with Some t => emit [SCom t] c | None => c end). intro S. destruct (i_thing x) as [s|l pol|f p pol| |]; try contradiction.
  - now apply stroke_ok with fc.
  - unfold render_region. destruct S as (_ & _ & S & _). destruct (strokes_ok fc l pol S (emit [SReg On] (level_polarity pol (Some Dark) c0))) as [c1 ->]. eexists. reflexivity.
  - destruct (get_aperture (figure_key f) None c0). eexists. reflexivity.
Qed.
Lemma all_ok fc o l : Forall (supported fc o) l -> forall c, exists c', render_all o l c = Ok c'.
Proof.
  induction 1 as [|x l S L IH]; intro c; [now exists c|]. cbn [render_all]. destruct (render_ok fc o x c S) as [c1 ->]. cbn [bind]. apply IH.
Qed.

(** ** What a rendered file consists of *)
Definition draw_key (f : figure) : option key :=
  match f with
  | FCircle d h => Some (KCircle d h)
  | FRect w h _ _ => Some (KRect w h no_holes)
  | FObround w h _ _ => Some (KObround w h no_holes)
  | FPolygon _ _ _ _ => None
  end.
Section Clean.
Variable pg : Qc -> Prop.
Variable pc : text -> Prop.
Variable kx : key -> Prop.
Definition og (o : option Qc) : Prop := match o with Some v => pg v | None => True end.
Definition ok_stmt (s : stmt) : Prop :=
  match s with
  | SCoord f x y i j op => from_list functions f /\ from_list operations op /\ og x /\ og y /\ og i /\ og j /\ (f, x, y, i, j, op) <> (None, None, None, None, None, None)
  | SCom t => pc t
  | SAp _ b => b = false
  | SLP _ | SQuad _ | SReg _ => True
  | _ => False
  end.
Definition clean (c : ctx) : Prop := Forall ok_stmt (c_body c) /\ Forall (fun x => kx (fst x)) (c_table c).
Definition pgp (p : point) : Prop := pg (fst p) /\ pg (snd p).
Definition stroke_g (s : stroke) : Prop :=
  pgp (start_of s) /\ pgp (end_of s) /\ (forall f k, aperture_of_stroke s = Some f -> draw_key f = Some k -> kx k) /\
  match s with WArc a _ c _ _ _ _ => pgp (fst c - fst a, snd c - snd a) | _ => True end.
Definition item_g (x : item) : Prop :=
  (forall t, i_comment x = Some t -> pc t) /\
  match i_thing x with
  | TStroke s => stroke_g s
  | TRegion l _ => Forall stroke_g l
  | TFlash f p _ => kx (figure_key f) /\ pgp p
  | TDrill | TSlot => True
  end.
Lemma clean_emit l c c' : clean c -> Forall ok_stmt l -> c_body c' = c_body c ++ l -> c_table c' = c_table c -> clean c'.
Proof. intros [B K] L E T. split; [rewrite E; now apply Forall_app|now rewrite T]. Qed.
Lemma clean_same c c' : clean c -> c_body c' = c_body c -> c_table c' = c_table c -> clean c'.
Proof. intros [B K] E T. split; [now rewrite E|now rewrite T]. Qed.
Lemma clean_get k c : clean c -> kx k -> clean (snd (get_aperture k None c)).
Proof.
  intros [B K] H. unfold get_aperture. destruct (kget k (c_table c)); [split; assumption|]. split; cbn [snd c_body c_table]; [exact B|].
  apply Forall_app. split; [exact K|]. constructor; [exact H|constructor].
Qed.
Lemma clean_select d c : clean c -> clean (select d c).
Proof.
  intro C. assert (G : clean (with_dcode (Some d) (emit [SAp d false] c))) by (eapply clean_emit with (l := [SAp d false]); try reflexivity; [exact C|]; constructor; [reflexivity|constructor]).
  unfold select. destruct (c_dcode c); [destruct (d =? z)%Z|]; assumption.
Qed.
Lemma clean_polarity p d c : clean c -> clean (level_polarity p d c).
Proof.
  intro C. unfold level_polarity. destruct (pol_eq _ _); [exact C|]. eapply clean_emit; try reflexivity; [exact C|]. constructor; [exact Logic.I|constructor].
Qed.
Lemma clean_aperture a c c' : clean c -> (forall f k, a = Some f -> draw_key f = Some k -> kx k) -> select_aperture a c = Ok c' -> clean c'.
Proof.
  intros C K H. destruct a as [f|]; [|apply ok_inj in H; now subst]. destruct f; cbn [select_aperture] in H; try discriminate H;
    match type of H with context [get_aperture ?k None c] => pose proof (clean_get k c C (K _ _ eq_refl eq_refl)) as G end;
    destruct (get_aperture _ None c); apply ok_inj in H; subst c'; now apply clean_select.
Qed.
Lemma og_simplify p c : pgp p -> og (fst (simplify_point p c)) /\ og (snd (simplify_point p c)).
Proof.
  intros [P1 P2]. unfold simplify_point. destruct (c_pos c) as [q|]; cbn [fst snd]; [|split; assumption].
  split; [destruct (qceq (fst p) (fst q))|destruct (qceq (snd p) (snd q))]; cbn; auto.
Qed.
Lemma ok_coord f p c op : from_list functions f -> In (T op) operations -> pgp p -> ok_stmt (coord_stmt f (simplify_point p c) op).
Proof.
  intros F O P. destruct (og_simplify p c P) as [X Y]. unfold coord_stmt, ok_stmt. repeat (split; [first [assumption|exact Logic.I]|]). discriminate.
Qed.
Lemma clean_finish b f c : clean c -> pgp b -> from_list functions f -> clean (finish_line b f c).
Proof.
  intros C P F. pose proof (ok_coord f b c "D01" F ltac:(cbn; auto) P) as O. unfold finish_line. destruct (simplify_point b c) as [[x|] [y|]];
    try (eapply clean_emit; try reflexivity; [exact C|constructor; [exact O|constructor]]).
  destruct f as [t|]; [|exact C]. eapply clean_emit; try reflexivity; [exact C|]. constructor; [|constructor]. cbn. repeat (split; [first [assumption|exact Logic.I]|]). discriminate.
Qed.
Lemma clean_line a b ap p d c c' : clean c -> pgp a -> pgp b -> (forall f k, ap = Some f -> draw_key f = Some k -> kx k) -> render_line a b ap p d c = Ok c' -> clean c'.
Proof.
  intros C A B K H. unfold render_line in H. destruct (select_aperture ap c) as [c1|] eqn:E; [|discriminate]. cbn [bind] in H.
  pose proof (clean_polarity p d _ (clean_aperture _ _ _ C K E)) as C1. set (c2 := level_polarity p d c1) in *.
  set (f := if is_func "G01" c2 then None else Some (T "G01")) in *. set (c3 := with_func (Some (T "G01")) c2) in *. apply ok_inj in H. subst c'.
  assert (F : from_list functions f) by (unfold f; destruct (is_func "G01" c2); cbn; auto).
  assert (C3 : clean c3) by (eapply clean_same; [exact C1|reflexivity..]).
  destruct (is_here a c3); [now apply clean_finish|]. apply clean_finish; [|exact B|exact Logic.I].
  eapply clean_emit; try reflexivity; [exact C3|]. constructor; [|constructor]. apply ok_coord; [exact F|cbn; auto|exact A].
Qed.
Lemma clean_arc a b cen dir ap q p d c c' : clean c -> pgp a -> pgp b -> pgp (fst cen - fst a, snd cen - snd a) ->
  (forall f k, ap = Some f -> draw_key f = Some k -> kx k) -> render_arc a b cen dir ap q p d c = Ok c' -> clean c'.
Proof.
  intros C A B O K H. unfold render_arc in H.
  set (c0 := if match c_quad c with Some q' => quad_eq q q' | None => false end then c else with_cquad (Some q) (emit [SQuad q] c)) in *.
  assert (C0 : clean c0) by (unfold c0; destruct (match c_quad c with Some q' => quad_eq q q' | None => false end); [exact C|]; eapply clean_emit; try reflexivity; [exact C|]; constructor; [exact Logic.I|constructor]).
  destruct (select_aperture ap c0) as [c1|] eqn:E; [|discriminate]. cbn [bind] in H.
  pose proof (clean_polarity p d _ (clean_aperture _ _ _ C0 K E)) as C1. set (c2 := level_polarity p d c1) in *.
  set (f := match dir with Clockwise => T "G02" | Counterclockwise => T "G03" end) in *. set (c3 := with_func (Some f) c2) in *.
  assert (C3 : clean c3) by (eapply clean_same; [exact C1|reflexivity..]).
  set (c4 := if is_here a c3 then c3 else with_pos (Some a) (emit [coord_stmt (Some (T "G01")) (simplify_point a c3) "D02"] c3)) in *.
  assert (C4 : clean c4) by (unfold c4; destruct (is_here a c3); [exact C3|]; eapply clean_emit; try reflexivity; [exact C3|]; constructor; [|constructor]; apply ok_coord; [cbn; auto|cbn; auto|exact A]).
  destruct (simplify_offset cen a) as [i j] eqn:Eo. destruct (og_simplify b c4 B) as [X Y]. destruct (simplify_point b c4) as [x y]. cbn [fst snd] in X, Y. apply ok_inj in H. subst c'.
  eapply clean_emit; try reflexivity; [exact C4|]. constructor; [|constructor]. cbn. split; [unfold f; destruct dir; cbn; auto 10|]. split; [auto|]. split; [exact X|]. split; [exact Y|].
  unfold simplify_offset in Eo. destruct O as [O1 O2]. cbn [fst snd] in O1, O2.
  assert (Z1 : fst cen = fst a -> 0 = fst cen - fst a) by (intros ->; ring). assert (Z2 : snd cen = snd a -> 0 = snd cen - snd a) by (intros ->; ring).
  destruct (qceq_spec (fst cen) (fst a)) as [E1|E1], (qceq_spec (snd cen) (snd a)) as [E2|E2]; injection Eo as <- <-; rewrite ?(Z1 E1), ?(Z2 E2); (split; [assumption|]); (split; [assumption|]); discriminate.
Qed.
Lemma clean_stroke s d c c' : clean c -> stroke_g s -> render_stroke s d c = Ok c' -> clean c'.
Proof.
  intros C (A & B & K & O) H. destruct s as [a b ap pol|a b cen dir ap q pol]; cbn [render_stroke start_of end_of aperture_of_stroke] in *.
  - exact (clean_line a b ap pol d c c' C A B K H).
  - exact (clean_arc a b cen dir ap q pol d c c' C A B O K H).
Qed.
Lemma clean_strokes l d : Forall stroke_g l -> forall c c', clean c -> render_strokes l d c = Ok c' -> clean c'.
Proof.
  induction 1 as [|s l S L IH]; intros c c' C H; cbn [render_strokes] in H; [apply ok_inj in H; now subst|].
  destruct (render_stroke s d c) as [c1|] eqn:E; [|discriminate]. cbn [bind] in H. eapply IH; [|exact H]. eapply clean_stroke; eauto.
Qed.
Lemma clean_one s c : clean c -> ok_stmt s -> clean (emit [s] c).
Proof. intros C O. eapply clean_emit; try reflexivity; [exact C|]. constructor; [exact O|constructor]. Qed.
Lemma clean_render o x c c' : clean c -> item_g x -> render o x c = Ok c' -> clean c'.
Proof.
  intros C [CM G] H. unfold render in H. set (c0 := match i_comment x with Some t => emit [SCom t] c | None => c end) in *.
  assert (C0 : clean c0) by (unfold c0; destruct (i_comment x) as [t|]; [apply clean_one; [exact C|exact (CM t eq_refl)]|exact C]).
  destruct (i_thing x) as [s|l pol|f p pol| |]; [| | |discriminate|apply ok_inj in H; now subst].
  - eapply clean_stroke; eauto.
  - unfold render_region in H. destruct (render_strokes l pol (emit [SReg On] (level_polarity pol (Some Dark) c0))) as [c1|] eqn:E; [|discriminate]. cbn [bind] in H. apply ok_inj in H. subst c'.
    assert (C1 : clean c1) by (eapply clean_strokes; [exact G| |exact E]; apply clean_one; [now apply clean_polarity|exact Logic.I]).
    apply clean_one; [|exact Logic.I]. destruct (explicit_region_move_end o); [|exact C1]. apply clean_one; [exact C1|].
    cbn. repeat (split; [auto|]). discriminate.
  - destruct G as [K P]. pose proof (clean_get _ _ C0 K) as C1. destruct (get_aperture (figure_key f) None c0) as [d c1]. cbn [snd] in C1. apply ok_inj in H. subst c'. unfold render_flash.
    set (c2 := select d (level_polarity pol (Some Dark) c1)). assert (C2 : clean c2) by now apply clean_select, clean_polarity.
    assert (O3 : ok_stmt (coord_stmt None (simplify_point p c2) "D03")) by (apply ok_coord; [exact Logic.I|cbn; auto 10|exact P]).
    assert (O2 : ok_stmt (coord_stmt None (simplify_point p c2) "D02")) by (apply ok_coord; [exact Logic.I|cbn; auto 10|exact P]).
    eapply clean_same with (c := if condensed_flash o then _ else _); [|reflexivity..].
    destruct (condensed_flash o); [now apply clean_one|]. eapply clean_emit; try reflexivity; [exact C2|]. constructor; [exact O2|]. constructor; [|constructor].
    cbn. repeat (split; [auto 10|]). discriminate.
Qed.
Lemma clean_all o l : Forall item_g l -> forall c c', clean c -> render_all o l c = Ok c' -> clean c'.
Proof.
  induction 1 as [|s l S L IH]; intros c c' C H; cbn [render_all] in H; [apply ok_inj in H; now subst|].
  destruct (render o s c) as [c1|] eqn:E; [|discriminate]. cbn [bind] in H. eapply IH; [|exact H]. eapply clean_render; eauto.
Qed.
End Clean.
