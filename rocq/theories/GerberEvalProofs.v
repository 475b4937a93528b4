(** Proofs about the evaluator. *)
From Verif Require Import PyBase QcLib NumModel MacroModel GerberText GerberEval GerberEvalSpec.
Open Scope Qc_scope.

(** ** The store *)

Lemma fetch_app h ext l : (l < List.length h)%nat -> fetch (h ++ ext) l = fetch h l.
Proof. intros H. unfold fetch. now apply nth_error_app1. Qed.
Lemma fetch_new h o : fetch (h ++ [o]) (List.length h) = Some o.
Proof. unfold fetch. rewrite nth_error_app2 by lia. now rewrite Nat.sub_diag. Qed.
Lemma assign_new h o f : assign (h ++ [o]) (List.length h) f = h ++ [f o].
Proof. induction h as [|x h IH]; [reflexivity|]. cbn [app List.length assign]. now rewrite IH. Qed.
Lemma fetch_lt h l o : fetch h l = Some o -> (l < List.length h)%nat.
Proof. intros H. apply nth_error_Some. unfold fetch in H. congruence. Qed.

(** ** Locations in use are allocated *)

Definition ap_ok (n : nat) (o : option loc) : Prop := match o with Some l => (l < n)%nat | None => True end.
Definition seg_ok (n : nat) (s : seg) : Prop :=
  match s with SgLine _ _ ap _ _ => ap_ok n ap | SgArc _ _ _ _ ap _ _ _ => ap_ok n ap end.
Definition prim_ok (n : nat) (p : prim) : Prop :=
  match p with PStroke s => seg_ok n s | PRegion l _ _ => Forall (seg_ok n) l | PFlash l => (l < n)%nat end.
Definition cur_ok (n : nat) (c : option (list seg)) : Prop := match c with Some l => Forall (seg_ok n) l | None => True end.
Record valid (st : gst) : Prop := {
  v_prims : Forall (prim_ok (List.length (g_store st))) (g_prims st);
  v_cur : cur_ok (List.length (g_store st)) (g_cur st);
  v_aps : Forall (fun p => (snd p < List.length (g_store st))%nat) (g_aps st) }.

Lemma ap_ok_mono n m o : (n <= m)%nat -> ap_ok n o -> ap_ok m o.
Proof. destruct o; cbn; [lia|auto]. Qed.
Lemma seg_ok_mono n m s : (n <= m)%nat -> seg_ok n s -> seg_ok m s.
Proof. destruct s; cbn; apply ap_ok_mono. Qed.
Lemma prim_ok_mono n m p : (n <= m)%nat -> prim_ok n p -> prim_ok m p.
Proof.
  intros L. destruct p; cbn; [now apply seg_ok_mono| |lia]. intros H. eapply Forall_impl; [|exact H]. intros s. now apply seg_ok_mono.
Qed.
Lemma cur_ok_mono n m c : (n <= m)%nat -> cur_ok n c -> cur_ok m c.
Proof. intros L. destruct c; cbn; auto. intros H. eapply Forall_impl; [|exact H]. intros s. now apply seg_ok_mono. Qed.

Lemma deref_ap_app h ext o : ap_ok (List.length h) o -> deref_ap (h ++ ext) o = deref_ap h o.
Proof. destruct o; cbn; auto. apply fetch_app. Qed.
Lemma deref_seg_app h ext s : seg_ok (List.length h) s -> deref_seg (h ++ ext) s = deref_seg h s.
Proof. destruct s; cbn; intros H; now rewrite deref_ap_app. Qed.
Lemma deref_app h ext p : prim_ok (List.length h) p -> deref (h ++ ext) p = deref h p.
Proof.
  destruct p; cbn; intros H.
  - now rewrite deref_seg_app.
  - do 2 f_equal. apply map_ext_in. intros s Hs. rewrite Forall_forall in H. apply deref_seg_app. auto.
  - now rewrite fetch_app.
Qed.

Lemma zget_ok {A} (d : list (Z * A)) k v P : Forall (fun p => P (snd p)) d -> zget k d = Some v -> P v.
Proof.
  induction d as [|[k' v'] d IH]; intros F H; [discriminate|]. inversion F; subst. cbn in H.
  destruct (k' =? k)%Z; [injection H as <-|]; auto.
Qed.

(** ** Evaluation only adds *)

(** [st'] extends [st]: more objects, more primitives, nothing overwritten. *)
Definition extends (st st' : gst) : Prop :=
  (exists ext, g_store st' = g_store st ++ ext) /\ (exists new, g_prims st' = g_prims st ++ new).

Lemma extends_refl st : extends st st.
Proof. split; exists []; now rewrite app_nil_r. Qed.
Lemma extends_trans a b c : extends a b -> extends b c -> extends a c.
Proof.
  intros [[e1 H1] [n1 P1]] [[e2 H2] [n2 P2]]. split.
  - exists (e1 ++ e2). rewrite H2, H1. now rewrite app_assoc.
  - exists (n1 ++ n2). rewrite P2, P1. now rewrite app_assoc.
Qed.

Ltac st_simpl := cbn [g_set g_prims g_aps g_macros g_cur g_x g_y g_op g_ap g_interp g_dir g_ipol g_lpol g_region g_quad g_store
  with_set with_aps with_macros with_cur with_xy with_op with_ap with_interp with_dir with_ipol with_lpol with_region with_quad with_store append] in *.

(** A state with the same store, primitives, current region and apertures. *)
Lemma valid_same st st' : g_store st' = g_store st -> g_prims st' = g_prims st -> g_cur st' = g_cur st ->
  g_aps st' = g_aps st -> valid st -> valid st' /\ extends st st'.
Proof.
  intros A B C D [P Q R]. split; [split; rewrite ?A, ?B, ?C, ?D; auto|]. split; exists []; rewrite app_nil_r; auto.
Qed.

Lemma valid_append st p : valid st -> prim_ok (List.length (g_store st)) p -> valid (append p st) /\ extends st (append p st).
Proof.
  intros [P Q R] H. split.
  - split; st_simpl; auto. apply Forall_app. auto.
  - split; [exists []; st_simpl; now rewrite app_nil_r|exists [p]; reflexivity].
Qed.

Lemma define_extends st d n m st' : valid st -> define_aperture st d n m = Ok st' -> valid st' /\ extends st st'.
Proof.
  intros [P Q R] H. unfold define_aperture in H. destruct (build_aperture _ n m) as [sh|]; [|discriminate]. cbn [bind] in H.
  apply ok_inj in H. subst st'. split.
  - split; st_simpl; rewrite app_length; cbn [List.length plus].
    + eapply Forall_impl; [|exact P]. intros p. apply prim_ok_mono. lia.
    + eapply cur_ok_mono; [|exact Q]. lia.
    + constructor; [cbn; lia|]. eapply Forall_impl; [|exact R]. cbn. intros; lia.
  - split; [eexists; reflexivity|exists []; st_simpl; now rewrite app_nil_r].
Qed.

Lemma param_extends st s st' : valid st -> evaluate_param st s = Ok st' -> valid st' /\ extends st st'.
Proof.
  intros V H. destruct s; cbn [evaluate_param] in H;
  try (apply ok_inj in H; subst st'; apply valid_same; auto; fail).
  - destruct param; apply ok_inj in H; subst st'; apply valid_same; auto.
  - now apply define_extends in H.
  - destruct (read_macro macro); [|discriminate]. cbn [bind] in H. apply ok_inj in H. subst st'. apply valid_same; auto.
Qed.

Lemma region_mode_extends st m : valid st -> valid (evaluate_region_mode st m) /\ extends st (evaluate_region_mode st m).
Proof.
  intros V. pose proof V as [P Q R]. unfold evaluate_region_mode. destruct (g_region st), m; try (apply valid_same; auto; fail).
  destruct (g_cur st) as [[|s l]|] eqn:E; (split; [split; st_simpl; auto; try exact I|split;
    [exists []; st_simpl; now rewrite app_nil_r|eexists; st_simpl; try reflexivity; symmetry; apply app_nil_r]]).
  apply Forall_app. split; [exact P|]. constructor; [|constructor]. exact Q.
Qed.

Lemma add_segment_extends st s : valid st -> seg_ok (List.length (g_store st)) s ->
  valid (add_segment s st) /\ extends st (add_segment s st).
Proof.
  intros [P Q R] H. split.
  - split; st_simpl; auto. unfold add_segment. st_simpl. destruct (g_cur st) as [l|]; cbn in *.
    + apply Forall_app. auto.
    + auto.
  - split; exists []; st_simpl; now rewrite app_nil_r.
Qed.

Lemma region_aperture_ok st : valid st -> ap_ok (List.length (g_store st)) (region_aperture st).
Proof.
  intros [_ _ R]. unfold region_aperture. destruct (zget (g_ap st) (g_aps st)) as [l|] eqn:E; [|exact I].
  exact (zget_ok _ _ _ (fun l => (l < List.length (g_store st))%nat) R E).
Qed.

Lemma draw_extends fc st x y i j st' : valid st -> draw fc st x y i j = Ok st' -> valid st' /\ extends st st'.
Proof.
  intros V H. pose proof (region_aperture_ok st V) as RA. unfold region_aperture in RA.
  unfold draw in H. destruct (g_interp st), (g_region st).
  - apply ok_inj in H. subst st'. apply add_segment_extends; auto.
  - destruct (zget (g_ap st) (g_aps st)) as [l|]; [|discriminate]. apply ok_inj in H. subst st'. apply valid_append; auto.
  - apply ok_inj in H. subst st'.
    match goal with |- valid (with_interp _ (add_segment ?s st)) /\ _ =>
      destruct (add_segment_extends st s V RA) as [V' E'];
      destruct (valid_same (add_segment s st) (with_interp Linear (add_segment s st)) eq_refl eq_refl eq_refl eq_refl V') as [V2 E2] end.
    split; [exact V2|]. eapply extends_trans; eassumption.
  - destruct (zget (g_ap st) (g_aps st)) as [l|]; [|discriminate]. apply ok_inj in H. subst st'. apply valid_append; auto.
Qed.

Lemma move_extends st : valid st -> valid (move st) /\ extends st (move st).
Proof.
  intros V. pose proof V as [P Q R]. unfold move. destruct (g_region st); [|split; [exact V|apply extends_refl]].
  destruct (g_cur st) as [[|s1 [|s2 l]]|] eqn:E; (split; [split; st_simpl; auto; try exact I|split;
    [exists []; st_simpl; now rewrite app_nil_r|eexists; st_simpl; try reflexivity; symmetry; apply app_nil_r]]).
  apply Forall_app. split; [exact P|]. constructor; [|constructor]. exact Q.
Qed.

Lemma flash_eq st x y l o : zget (g_ap st) (g_aps st) = Some l -> fetch (g_store st) l = Some o ->
  flash st x y = Ok (append (PFlash (List.length (g_store st)))
    (with_store (g_store st ++ [mkObj (o_shape o) (Some (x, y)) (g_lpol st) (p_units (g_set st))]) st)).
Proof.
  intros A B. unfold flash. rewrite A, B. cbn [alloc]. rewrite !assign_new. reflexivity.
Qed.

Lemma flash_extends st x y st' : valid st -> flash st x y = Ok st' -> valid st' /\ extends st st'.
Proof.
  intros V H. pose proof V as [P Q R]. destruct (zget (g_ap st) (g_aps st)) as [l|] eqn:E.
  2:{ unfold flash in H. rewrite E in H. discriminate. }
  destruct (fetch (g_store st) l) as [o|] eqn:F.
  2:{ unfold flash in H. rewrite E, F in H. discriminate. }
  rewrite (flash_eq st x y l o E F) in H. apply ok_inj in H. subst st'. split.
  - split; st_simpl; rewrite app_length; cbn [List.length plus].
    + apply Forall_app. split; [|constructor; [cbn; lia|constructor]]. eapply Forall_impl; [|exact P]. intros p. apply prim_ok_mono. lia.
    + eapply cur_ok_mono; [|exact Q]. lia.
    + eapply Forall_impl; [|exact R]. cbn. intros; lia.
  - split; eexists; st_simpl; reflexivity.
Qed.

(** The modes set by the function code. *)
Definition set_function (fn : option text) (st : gst) : gst :=
  if otmem fn ["G01"; "G1"]%string then with_interp Linear st
  else if otmem fn ["G02"; "G2"; "G03"; "G3"]%string then
    with_dir (if otmem fn ["G02"; "G2"]%string then Clockwise else Counterclockwise) (with_interp ArcMode st)
  else st.
Definition set_op (op : option text) (st : gst) : gst := match op with Some o => with_op o st | None => st end.
Definition operate (fc : centre_fun) (st : gst) (x y : Qc) (i j : option Qc) : res gst :=
  if tmem (g_op st) ["D01"; "D1"]%string then draw fc st x y i j
  else if tmem (g_op st) ["D02"; "D2"]%string then Ok (move st)
  else if tmem (g_op st) ["D03"; "D3"]%string then flash st x y
  else Ok st.
Lemma evaluate_coord_eq fc st fn sx sy i j op : evaluate_coord fc st fn sx sy i j op =
  let x := match sx with None => g_x st | Some v => v end in
  let y := match sy with None => g_y st | Some v => v end in
  let st1 := set_function fn st in
  if only_function fn sx sy i j op then Ok (st1, SCoord fn sx sy i j op)
  else let st2 := set_op op st1 in
       do st3 <- operate fc st2 x y i j; Ok (with_xy x y st3, SCoord fn sx sy i j (Some (g_op st2))).
Proof. reflexivity. Qed.

Lemma set_function_extends fn st : valid st -> valid (set_function fn st) /\ extends st (set_function fn st).
Proof.
  intros V. unfold set_function. destruct (otmem fn _); [apply valid_same; auto|].
  destruct (otmem fn ["G02"; "G2"; "G03"; "G3"]%string); [apply valid_same; auto|]. split; [exact V|apply extends_refl].
Qed.
Lemma set_op_extends op st : valid st -> valid (set_op op st) /\ extends st (set_op op st).
Proof. intros V. destruct op; [apply valid_same; auto|]. split; [exact V|apply extends_refl]. Qed.
Lemma operate_extends fc st x y i j st' : valid st -> operate fc st x y i j = Ok st' -> valid st' /\ extends st st'.
Proof.
  intros V H. unfold operate in H. destruct (tmem (g_op st) ["D01"; "D1"]%string); [now apply draw_extends in H|].
  destruct (tmem (g_op st) ["D02"; "D2"]%string); [apply ok_inj in H; subst; now apply move_extends|].
  destruct (tmem (g_op st) ["D03"; "D3"]%string); [now apply flash_extends in H|].
  apply ok_inj in H. subst. split; [exact V|apply extends_refl].
Qed.

Lemma evaluate_extends fc st s st' s' : valid st -> evaluate fc st s = Ok (st', s') -> valid st' /\ extends st st'.
Proof.
  intros V H. destruct s; cbn [evaluate] in H;
  try (apply ok_inj in H; injection H as <- _; first [apply valid_same; auto; fail | split; [exact V|apply extends_refl]]);
  try (match type of H with bind ?e _ = _ => destruct e as [st1|] eqn:E; [|discriminate] end; cbn [bind] in H;
       apply ok_inj in H; injection H as <- _; now apply param_extends in E).
  - rewrite evaluate_coord_eq in H. cbv zeta in H. destruct (set_function_extends func st V) as [V1 E1].
    destruct (only_function func x y i j op); [apply ok_inj in H; injection H as <- _; auto|].
    destruct (set_op_extends op _ V1) as [V2 E2].
    destruct (operate fc _ _ _ i j) as [st3|] eqn:O; [|discriminate]. cbn [bind] in H. apply ok_inj in H. injection H as <- _.
    apply operate_extends in O as [V3 E3]; [|exact V2].
    destruct (valid_same st3 (with_xy (match x with Some v => v | None => g_x st end) (match y with Some v => v | None => g_y st end) st3)
       eq_refl eq_refl eq_refl eq_refl V3) as [V4 E4].
    split; [exact V4|]. eapply extends_trans; [exact E1|]. eapply extends_trans; [exact E2|]. eapply extends_trans; [exact E3|exact E4].
  - apply ok_inj in H. injection H as <- _. now apply region_mode_extends.
Qed.

Lemma valid_init : valid g_init.
Proof. split; constructor. Qed.

Lemma evaluate_all_extends fc : forall l st st' l', valid st -> evaluate_all fc st l = Ok (st', l') -> valid st' /\ extends st st'.
Proof.
  induction l as [|s l IH]; intros st st' l' V H; cbn [evaluate_all] in H.
  - apply ok_inj in H. injection H as <- _. split; [exact V|apply extends_refl].
  - destruct (evaluate fc st s) as [[st1 s1]|] eqn:E; [|discriminate]. cbn [bind] in H.
    destruct (evaluate_all fc st1 l) as [[st2 l2]|] eqn:E2; [|discriminate]. cbn [bind] in H. apply ok_inj in H. injection H as <- _.
    apply evaluate_extends in E as [V1 X1]; [|exact V]. apply IH in E2 as [V2 X2]; [|exact V1].
    split; [exact V2|]. eapply extends_trans; eassumption.
Qed.

Lemma evaluate_all_app fc : forall l1 l2 st, evaluate_all fc st (l1 ++ l2) =
  do r <- evaluate_all fc st l1; let '(st1, a) := r in
  do r2 <- evaluate_all fc st1 l2; let '(st2, b) := r2 in Ok (st2, a ++ b).
Proof.
  induction l1 as [|s l1 IH]; intros l2 st; cbn [app evaluate_all bind].
  - destruct (evaluate_all fc st l2) as [[st2 b]|]; reflexivity.
  - destruct (evaluate fc st s) as [[st1 s1]|]; [|reflexivity]. cbn [bind]. rewrite IH.
    destruct (evaluate_all fc st1 l1) as [[st2 a]|]; [|reflexivity]. cbn [bind].
    destruct (evaluate_all fc st2 l2) as [[st3 b]|]; reflexivity.
Qed.

Lemma extends_shown st st' : valid st -> extends st st' -> exists new, g_prims st' = g_prims st ++ new /\
  shown st' = shown st ++ map (deref (g_store st')) new /\ map (deref (g_store st')) (g_prims st) = shown st.
Proof.
  intros [P _ _] [[ext E] [new N]].
  assert (M : map (deref (g_store st')) (g_prims st) = shown st).
  { unfold shown. apply map_ext_in. intros p Hp. rewrite E. apply deref_app. rewrite Forall_forall in P. auto. }
  exists new. split; [exact N|]. split; [|exact M]. unfold shown at 1. rewrite N, map_app. now rewrite M.
Qed.

(** C26 *)
Lemma earlier_unchanged fc l1 l2 st2 a : evaluate_all fc g_init (l1 ++ l2) = Ok (st2, a) ->
  exists st1 b new, evaluate_all fc g_init l1 = Ok (st1, b) /\ g_prims st2 = g_prims st1 ++ new /\
    map (deref (g_store st2)) (g_prims st1) = shown st1.
Proof.
  intros H. rewrite evaluate_all_app in H. destruct (evaluate_all fc g_init l1) as [[st1 b]|] eqn:E; [|discriminate]. cbn [bind] in H.
  destruct (evaluate_all fc st1 l2) as [[st2' c]|] eqn:E2; [|discriminate]. cbn [bind] in H. apply ok_inj in H. injection H as <- _.
  apply evaluate_all_extends in E as [V1 _]; [|exact valid_init].
  apply evaluate_all_extends in E2 as [_ X]; [|exact V1]. destruct (extends_shown _ _ V1 X) as (new & N & _ & M).
  exists st1, b, new. auto.
Qed.

(** C27 *)
Lemma neutral_filtered fc : forall l st, rmap fst (evaluate_all fc st (filter (fun s => negb (neutral s)) l)) = rmap fst (evaluate_all fc st l).
Proof.
  assert (B : forall (r : res (gst * list stmt)) s, rmap fst (do r' <- r; let '(st, l) := r' in Ok (st, s :: l)) = rmap fst r).
  { intros [[st l]|e] s; reflexivity. }
  induction l as [|s l IH]; intros st; [reflexivity|]. cbn [filter]. destruct (neutral s) eqn:E; cbn [negb].
  - rewrite IH. destruct s; try discriminate E; cbn [evaluate_all evaluate bind]; now rewrite B.
  - cbn [evaluate_all]. destruct (evaluate fc st s) as [[st1 s1]|]; [|reflexivity]. cbn [bind]. rewrite !B. apply IH.
Qed.

(** ** The evaluator follows the graphics-state semantics *)

Definition motion_of (st : gst) : motion :=
  match g_interp st, g_dir st with
  | Linear, _ => Straight
  | ArcMode, Clockwise => Clockwise_arc
  | ArcMode, Counterclockwise => Counterclockwise_arc
  end.
Definition macros_ok (past : list stmt) (ms : list (text * list instr)) : Prop := forall name,
  match macro_body name past with
  | None => tget name ms = None
  | Some b => exists i, read_macro b = Ok i /\ tget name ms = Some i
  end.
Definition aps_ok (past : list stmt) (h : store) (aps : list (Z * loc)) : Prop := forall d,
  deref_ap h (zget d aps) = aperture_of d past /\ (zget d aps = None -> aperture_of d past = None) /\
  (forall l, zget d aps = Some l -> exists o, fetch h l = Some o).
Record inv (fc : centre_fun) (past : list stmt) (st : gst) : Prop := {
  i_pt : (g_x st, g_y st) = current_point past;
  i_op : g_op st = current_op past;
  i_sel : g_ap st = current_selection past;
  i_pol : g_lpol st = current_polarity past;
  i_units : p_units (g_set st) = current_units past;
  i_quad : g_quad st = current_quadrant past;
  i_reg : g_region st = in_region past;
  i_motion : motion_of st = current_motion past;
  i_macros : macros_ok past (g_macros st);
  i_aps : aps_ok past (g_store st) (g_aps st);
  i_cur : contour fc past = map (deref_seg (g_store st)) (or_else (g_cur st) []);
  i_off : g_region st = Off -> g_cur st = None;
  i_valid : valid st }.

Lemma inv_init fc : inv fc [] g_init.
Proof.
  split; try reflexivity; try exact valid_init.
  - intros name. reflexivity.
  - intros d. repeat split; auto. discriminate.
Qed.

(** Aperture definitions. *)
Lemma whole_part_is q : whole_part q = py_trunc q.
Proof. unfold whole_part, py_trunc. rewrite Z.quot_div by discriminate. cbn [Z.sgn Z.abs]. now rewrite Z.mul_1_r. Qed.
Lemma build_definition past ms name mods sh : macros_ok past ms -> build_aperture ms name mods = Ok sh ->
  exists dims rest, mods = dims :: rest /\ definition past name dims = Some sh.
Proof.
  intros M H. unfold build_aperture in H. destruct mods as [|m rest].
  { exfalso. destruct (teq name (T "C")), (teq name (T "R")), (teq name (T "O")), (teq name (T "P")); try discriminate H.
    destruct (tget name ms); discriminate H. }
  exists m, rest. split; [reflexivity|]. unfold definition. cbn [index nth_error bind] in H.
  destruct (teq name (T "C")).
  { destruct m as [|d m]; [discriminate|]. cbn [nth_error bind index] in H. destruct m as [|a [|b [|c m]]]; apply ok_inj in H; subst sh; reflexivity. }
  destruct (teq name (T "R")).
  { destruct m as [|d [|e m]]; try discriminate. cbn [nth_error bind index] in H. destruct m as [|a [|b [|c m]]]; apply ok_inj in H; subst sh; reflexivity. }
  destruct (teq name (T "O")).
  { destruct m as [|d [|e m]]; try discriminate. cbn [nth_error bind index] in H. destruct m as [|a [|b [|c m]]]; apply ok_inj in H; subst sh; reflexivity. }
  destruct (teq name (T "P")).
  { destruct m as [|d [|e m]]; try discriminate. cbn [nth_error bind index] in H. rewrite <- whole_part_is in H. destruct m as [|a [|b [|c m]]]; apply ok_inj in H; subst sh; reflexivity. }
  specialize (M name). destruct (macro_body name past) as [b|].
  - destruct M as (i & R & G). rewrite G in H. rewrite R. cbn [index nth_error bind] in H.
    destruct (eval_macro [] i (PSeq m)) as [[ps e]|]; [|discriminate]. apply ok_inj in H. subst sh. reflexivity.
  - rewrite M in H. discriminate.
Qed.
Lemma definition_build past ms name dims rest sh : macros_ok past ms -> definition past name dims = Some sh ->
  build_aperture ms name (dims :: rest) = Ok sh.
Proof.
  intros M H. unfold build_aperture, definition in *. cbn [index nth_error bind].
  destruct (teq name (T "C")).
  { destruct dims as [|d m]; [discriminate|]. cbn [nth_error bind index]. destruct m as [|a [|b [|c m]]]; injection H as <-; reflexivity. }
  destruct (teq name (T "R")).
  { destruct dims as [|d [|e m]]; try discriminate. cbn [nth_error bind index]. destruct m as [|a [|b [|c m]]]; injection H as <-; reflexivity. }
  destruct (teq name (T "O")).
  { destruct dims as [|d [|e m]]; try discriminate. cbn [nth_error bind index]. destruct m as [|a [|b [|c m]]]; injection H as <-; reflexivity. }
  destruct (teq name (T "P")).
  { destruct dims as [|d [|e m]]; try discriminate. cbn [nth_error bind index]. rewrite <- whole_part_is. destruct m as [|a [|b [|c m]]]; injection H as <-; reflexivity. }
  specialize (M name). destruct (macro_body name past) as [b|]; [|discriminate]. destruct M as (i & R & G). rewrite G. rewrite R in H. cbn [index nth_error bind].
  destruct (eval_macro [] i (PSeq dims)) as [[ps e]|]; [|discriminate]. injection H as <-. reflexivity.
Qed.

(** The function and operation codes. *)
Lemma set_function_motion fn st : motion_of (set_function fn st) = or_else (match fn with Some f => motion_code f | None => None end) (motion_of st).
Proof.
  unfold set_function. destruct fn as [f|]; [|reflexivity]. unfold otmem, tmem, motion_code. cbn [existsb].
  destruct (teq f (T "G01")); [reflexivity|]. destruct (teq f (T "G1")); [reflexivity|].
  destruct (teq f (T "G02")); [reflexivity|]. destruct (teq f (T "G2")); [reflexivity|].
  destruct (teq f (T "G03")); [reflexivity|]. destruct (teq f (T "G3")); [reflexivity|]. reflexivity.
Qed.
Lemma set_function_rest fn st :
  let st' := set_function fn st in
  g_set st' = g_set st /\ g_prims st' = g_prims st /\ g_aps st' = g_aps st /\ g_macros st' = g_macros st /\ g_cur st' = g_cur st /\
  g_x st' = g_x st /\ g_y st' = g_y st /\ g_op st' = g_op st /\ g_ap st' = g_ap st /\ g_lpol st' = g_lpol st /\
  g_region st' = g_region st /\ g_quad st' = g_quad st /\ g_store st' = g_store st.
Proof.
  cbv zeta. unfold set_function. destruct (otmem fn _); [repeat split|].
  destruct (otmem fn ["G02"; "G2"; "G03"; "G3"]%string); repeat split.
Qed.
Lemma operate_eq fc st x y i j : operate fc st x y i j =
  match operation_of (g_op st) with Draw => draw fc st x y i j | Move => Ok (move st) | Flash => flash st x y | Other => Ok st end.
Proof.
  unfold operate, operation_of, tmem. cbn [existsb].
  destruct (teq (g_op st) (T "D01")); [reflexivity|]. destruct (teq (g_op st) (T "D1")); [reflexivity|].
  destruct (teq (g_op st) (T "D02")); [reflexivity|]. destruct (teq (g_op st) (T "D2")); [reflexivity|].
  destruct (teq (g_op st) (T "D03")); [reflexivity|]. destruct (teq (g_op st) (T "D3")); reflexivity.
Qed.
Lemma only_function_mode fn x y i j op : only_function fn x y i j op = mode_only (SCoord fn x y i j op).
Proof. reflexivity. Qed.

(** Statements that only touch the settings. *)
Lemma shown_same st st' : g_store st' = g_store st -> g_prims st' = g_prims st -> shown st' = shown st.
Proof. intros A B. unfold shown. now rewrite A, B. Qed.

Lemma shown_append st p : shown (append p st) = shown st ++ [deref (g_store st) p].
Proof. unfold shown. st_simpl. now rewrite map_app. Qed.

Ltac inv_triv I := destruct I as [Ipt Iop Isel Ipol Iu Iq Ir Im Imac Iaps Icur Ioff [V1 V2 V3]];
  split; st_simpl; auto; split; st_simpl; auto.

(** Statements other than coordinates and region changes. *)
Lemma plain_step fc past st s st' s' : inv fc past st -> (forall fn x y i j op, s <> SCoord fn x y i j op) -> (forall m, s <> SReg m) ->
  evaluate fc st s = Ok (st', s') -> inv fc (s :: past) st' /\ shown st' = shown st /\ marks fc past s = Some [].
Proof.
  intros I NC NR H.
  assert (MK : marks fc past s = Some []).
  { destruct s; try reflexivity; exfalso; [eapply NC|eapply NR]; reflexivity. }
  assert (CM : current_motion (s :: past) = current_motion past).
  { destruct s; try reflexivity; exfalso; eapply NC; reflexivity. }
  assert (CC : contour fc (s :: past) = contour fc past).
  { destruct s; try (cbn [contour action]; destruct (in_region past); reflexivity); exfalso; [eapply NC|eapply NR]; reflexivity. }
  assert (J : forall st2, g_x st2 = g_x st -> g_y st2 = g_y st -> g_op st2 = g_op st -> g_region st2 = g_region st ->
     g_interp st2 = g_interp st -> g_dir st2 = g_dir st -> g_cur st2 = g_cur st -> g_prims st2 = g_prims st -> g_store st2 = g_store st -> g_aps st2 = g_aps st ->
     g_ap st2 = current_selection (s :: past) -> g_lpol st2 = current_polarity (s :: past) ->
     p_units (g_set st2) = current_units (s :: past) -> g_quad st2 = current_quadrant (s :: past) ->
     macros_ok (s :: past) (g_macros st2) -> (forall d, aperture_of d (s :: past) = aperture_of d past) ->
     current_point (s :: past) = current_point past -> current_op (s :: past) = current_op past -> in_region (s :: past) = in_region past ->
     inv fc (s :: past) st2 /\ shown st2 = shown st /\ marks fc past s = Some []).
  { intros st2 Hx Hy Ho Hr Hi Hd Hc Hp Hs Ha E1 E2 E3 E4 E5 E6 E7 E8 E9.
    destruct I as [Ipt Iop Isel Ipol Iu Iq Ir Im Imac Iaps Icur Ioff V].
    split; [|split; [apply shown_same; auto|exact MK]].
    split; auto.
    - rewrite Hx, Hy, E7. exact Ipt.
    - now rewrite Ho, E8.
    - now rewrite Hr, E9.
    - unfold motion_of. rewrite Hi, Hd. fold (motion_of st). now rewrite CM.
    - intros d. rewrite Hs, Ha, E6. apply Iaps.
    - rewrite CC, Hs, Hc. exact Icur.
    - rewrite Hr, Hc. exact Ioff.
    - apply (valid_same st); auto. }
  destruct I as [Ipt Iop Isel Ipol Iu Iq Ir Im Imac Iaps Icur Ioff V].
  destruct s; cbn [evaluate evaluate_param bind] in H;
  try (apply ok_inj in H; injection H as <- <-; apply J; first [reflexivity | assumption]; fail);
  try (exfalso; eapply NC; reflexivity); try (exfalso; eapply NR; reflexivity).
  - destruct param; apply ok_inj in H; injection H as <- <-; apply J; first [reflexivity | assumption].
  - (* aperture definition *)
    clear J. unfold define_aperture in H. destruct (build_aperture (g_macros st) shape mods) as [sh|] eqn:B; [|discriminate].
    cbn [bind alloc] in H. apply ok_inj in H. injection H as <- <-.
    destruct (build_definition _ _ _ _ _ Imac B) as (dims & rest & -> & D).
    pose proof V as [V1 V2 V3].
    split; [|split; [|reflexivity]].
    + split; st_simpl; auto.
      * intros d'. cbn [zget aperture_of hd]. unfold deref_ap. destruct (Z.eqb_spec d d') as [->|N].
        -- destruct (Z.eq_dec d' d') as [_|N]; [|congruence]. rewrite D, fetch_new, Iu. repeat split; [discriminate|].
           intros l E. injection E as <-. rewrite fetch_new. eauto.
        -- destruct (Z.eq_dec d d') as [E|_]; [congruence|]. destruct (Iaps d') as (A1 & A2 & A3). rewrite <- A1.
           unfold deref_ap in *. destruct (zget d' (g_aps st)) as [l|] eqn:Z0.
           ++ destruct (A3 l eq_refl) as [o F]. rewrite (fetch_app _ _ _ (fetch_lt _ _ _ F)). repeat split; [discriminate|].
              intros l0 E0. injection E0 as <-. rewrite (fetch_app _ _ _ (fetch_lt _ _ _ F)). eauto.
           ++ repeat split; auto. discriminate.
      * rewrite CC, Icur. apply map_ext_in. intros x Hx. symmetry. apply deref_seg_app.
        destruct (g_cur st) as [lst|]; [|destruct Hx]. cbn in V2, Hx. rewrite Forall_forall in V2. auto.
      * apply (define_extends st d shape (dims :: rest) _ V). unfold define_aperture. rewrite B. reflexivity.
    + destruct (define_extends st d shape (dims :: rest) (with_aps ((d, List.length (g_store st)) :: g_aps st)
        (g_store st ++ [mkObj sh None Dark (p_units (g_set st))]) st) V) as [_ X].
      { unfold define_aperture. rewrite B. reflexivity. }
      destruct (extends_shown _ _ V X) as (new & N & S1 & S2). st_simpl.
      unfold shown at 1. st_simpl. exact S2.
  - destruct (read_macro macro) as [ins|] eqn:R; [|discriminate]. cbn [bind] in H. apply ok_inj in H. injection H as <- <-.
    apply J; try reflexivity; try assumption.
    intros name'. st_simpl. cbn [macro_body tget]. destruct (teq name name'); [eauto|]. apply Imac.
Qed.

Lemma region_step fc past st m : inv fc past st ->
  let st' := evaluate_region_mode st m in
  inv fc (SReg m :: past) st' /\ exists ms, marks fc past (SReg m) = Some ms /\ shown st' = shown st ++ map Some ms.
Proof.
  intros I. cbv zeta. destruct (region_mode_extends st m (i_valid _ _ _ I)) as [V' _].
  destruct I as [Ipt Iop Isel Ipol Iu Iq Ir Im Imac Iaps Icur Ioff V].
  assert (CM : forall m, current_motion (SReg m :: past) = current_motion past) by reflexivity.
  unfold evaluate_region_mode in *. destruct m.
  - (* On *)
    assert (E : match g_region st, On with On, Off => with_cur None match g_cur st with Some (s :: l) => append (PRegion (s :: l) (g_lpol st) (p_units (g_set st))) st | _ => st end | _, _ => st end = st)
      by (destruct (g_region st); reflexivity).
    rewrite E in *. split.
    + split; st_simpl; auto; try discriminate. cbn [contour action]. destruct (in_region past); exact Icur.
    + exists []. split; [cbn [marks action]; reflexivity|]. cbn [map]. rewrite app_nil_r. apply shown_same; reflexivity.
  - (* Off *)
    cbn [marks]. rewrite <- Ir, Icur, <- Ipol, <- Iu. destruct (g_region st) eqn:R.
    + split.
      * split; st_simpl; auto; try (destruct (g_cur st) as [[|c l]|]; st_simpl; auto; fail).
      * destruct (g_cur st) as [[|c l]|]; cbn [or_else map].
        -- exists []. split; [reflexivity|]. cbn [map]. rewrite app_nil_r. apply shown_same; reflexivity.
        -- eexists. split; [reflexivity|]. transitivity (shown (append (PRegion (c :: l) (g_lpol st) (p_units (g_set st))) st)).
           { apply shown_same; reflexivity. }
           rewrite shown_append. reflexivity.
        -- exists []. split; [reflexivity|]. cbn [map]. rewrite app_nil_r. apply shown_same; reflexivity.
    + split.
      * split; st_simpl; auto. rewrite (Ioff eq_refl). reflexivity.
      * exists []. split; [reflexivity|]. cbn [map]. rewrite app_nil_r. apply shown_same; reflexivity.
Qed.

Lemma aps_ok_app past h ext aps : aps_ok past h aps -> aps_ok past (h ++ ext) aps.
Proof.
  intros A d. destruct (A d) as (A1 & A2 & A3). destruct (zget d aps) as [l|] eqn:Z0.
  - destruct (A3 l eq_refl) as [o F]. pose proof (fetch_app h ext l (fetch_lt _ _ _ F)) as E. unfold deref_ap in *. rewrite E.
    repeat split; [exact A1|discriminate|]. intros l0 E0. injection E0 as <-. rewrite E. eauto.
  - repeat split; auto. discriminate.
Qed.
Lemma latest_cons {A} (f : stmt -> option A) d s p : latest f d (s :: p) = or_else (f s) (latest f d p).
Proof. cbn [latest]. destruct (f s); reflexivity. Qed.
Lemma target_point past fn x y i j op : current_point (SCoord fn x y i j op :: past) = target past (SCoord fn x y i j op).
Proof. unfold current_point, target. rewrite !latest_cons. cbn [fst snd]. destruct x, y; reflexivity. Qed.
Lemma action_eq past fn x y i j op : mode_only (SCoord fn x y i j op) = false ->
  action past (SCoord fn x y i j op) = operation_of (or_else op (current_op past)).
Proof. intros H. unfold action. now rewrite H. Qed.
Lemma motion_cons past s : current_motion (s :: past) =
  match action past s, in_region past with Draw, On => Straight | _, _ => or_else (sets_motion s) (current_motion past) end.
Proof. reflexivity. Qed.
Lemma contour_cons fc past fn x y i j op : let s := SCoord fn x y i j op in contour fc (s :: past) =
  match in_region past, action past s with
  | On, Move => []
  | On, Draw => contour fc past ++ [path fc past s (aperture_of (current_selection past) past)]
  | _, _ => contour fc past
  end.
Proof. reflexivity. Qed.
Lemma marks_coord fc past fn x y i j op : let s := SCoord fn x y i j op in marks fc past s =
  let pol := current_polarity past in let u := current_units past in
  let a := aperture_of (current_selection past) past in
      match action past s, in_region past with
      | Other, _ => Some []
      | Move, Off => Some []
      | Move, On => match contour fc past with _ :: _ :: _ => Some [Fill (contour fc past) pol u] | _ => Some [] end
      | Draw, On => Some []
      | Draw, Off => match a with Some _ => Some [Stroke (path fc past s a)] | None => None end
      | Flash, _ => match a with Some o => Some [Stamp (mkObj (o_shape o) (Some (target past s)) pol u)] | None => None end
      end.
Proof. reflexivity. Qed.

(** The state just before the operation is carried out. *)
Record ready (fc : centre_fun) (past : list stmt) (s : stmt) (st : gst) : Prop := {
  r_pt : (g_x st, g_y st) = current_point past;
  r_op : g_op st = current_op (s :: past);
  r_sel : g_ap st = current_selection past;
  r_pol : g_lpol st = current_polarity past;
  r_units : p_units (g_set st) = current_units past;
  r_quad : g_quad st = current_quadrant past;
  r_reg : g_region st = in_region past;
  r_motion : motion_of st = or_else (sets_motion s) (current_motion past);
  r_macros : macros_ok past (g_macros st);
  r_aps : aps_ok past (g_store st) (g_aps st);
  r_cur : contour fc past = map (deref_seg (g_store st)) (or_else (g_cur st) []);
  r_off : g_region st = Off -> g_cur st = None;
  r_valid : valid st }.

Lemma make_ready fc past st fn x y i j op : inv fc past st -> let s := SCoord fn x y i j op in
  ready fc past s (set_op op (set_function fn st)) /\ shown (set_op op (set_function fn st)) = shown st.
Proof.
  intros I. cbv zeta.
  destruct (set_function_extends fn st (i_valid _ _ _ I)) as [W _]. destruct (set_op_extends op _ W) as [W' _].
  destruct I as [Ipt Iop Isel Ipol Iu Iq Ir Im Imac Iaps Icur Ioff V].
  pose proof (set_function_rest fn st) as R. cbv zeta in R.
  pose proof (set_function_motion fn st) as M. rewrite Im in M.
  destruct R as (R1 & R2 & R3 & R4 & R5 & R6 & R7 & R8 & R9 & R10 & R11 & R12 & R13).
  split.
  - split; try exact W'.
    + destruct op; cbn [set_op]; st_simpl; now rewrite R6, R7.
    + unfold current_op. rewrite latest_cons. destruct op; cbn [set_op sets_op or_else]; st_simpl; [reflexivity|]. now rewrite R8.
    + destruct op; cbn [set_op]; st_simpl; now rewrite R9.
    + destruct op; cbn [set_op]; st_simpl; now rewrite R10.
    + destruct op; cbn [set_op]; st_simpl; now rewrite R1.
    + destruct op; cbn [set_op]; st_simpl; now rewrite R12.
    + destruct op; cbn [set_op]; st_simpl; now rewrite R11.
    + transitivity (motion_of (set_function fn st)); [destruct op; reflexivity|]. rewrite M. destruct fn; reflexivity.
    + destruct op; cbn [set_op]; st_simpl; now rewrite R4.
    + destruct op; cbn [set_op]; st_simpl; now rewrite R13, R3.
    + destruct op; cbn [set_op]; st_simpl; now rewrite R13, R5.
    + destruct op; cbn [set_op]; st_simpl; now rewrite R11, R5.
  - transitivity (shown (set_function fn st)); [destruct op; reflexivity|]. now apply shown_same.
Qed.

(** The path of a draw. *)
Lemma path_of_draw fc past s st x y a : ready fc past s st -> forall fn sx sy i j op, s = SCoord fn sx sy i j op -> (x, y) = target past s ->
  path fc past s a =
  match g_interp st with
  | Linear => VLine (g_x st, g_y st) (x, y) a (g_lpol st) (p_units (g_set st))
  | ArcMode => VArc (g_x st, g_y st) (x, y) (find_center fc st (g_x st, g_y st) (x, y) (dflt_q i, dflt_q j)) (g_dir st) a (g_quad st)
                 (g_lpol st) (p_units (g_set st))
  end.
Proof.
  intros [Ipt Iop Isel Ipol Iu Iq Ir Im Imac Iaps Icur Ioff V] fn sx sy i j op Es Ex. unfold path.
  rewrite <- Im, <- Ipt, <- Ipol, <- Iu, <- Iq, <- Ex. subst s. unfold motion_of, find_center.
  destruct (g_interp st), (g_dir st), (g_quad st); cbn [fst snd]; try reflexivity; destruct i, j; reflexivity.
Qed.

Lemma operate_step fc past fn sx sy i j op st x y st3 : let s := SCoord fn sx sy i j op in
  mode_only s = false -> ready fc past s st -> (x, y) = target past s -> operate fc st x y i j = Ok st3 ->
  inv fc (s :: past) (with_xy x y st3) /\ exists ms, marks fc past s = Some ms /\ shown st3 = shown st ++ map Some ms.
Proof.
  cbv zeta. intros MO R Ex O.
  assert (W : valid (with_xy x y st3)).
  { destruct (operate_extends _ _ _ _ _ _ _ (r_valid _ _ _ _ R) O) as [W0 _]. now apply (valid_same st3). }
  pose proof (fun a => path_of_draw fc past _ st x y a R fn sx sy i j op eq_refl Ex) as P.
  destruct R as [Ipt Iop Isel Ipol Iu Iq Ir Im Imac Iaps Icur Ioff V].
  rewrite operate_eq in O.
  assert (A : operation_of (g_op st) = action past (SCoord fn sx sy i j op)).
  { rewrite (action_eq past) by exact MO. rewrite Iop. unfold current_op. rewrite latest_cons. destruct op; reflexivity. }
  rewrite A in O.
  assert (PT : (x, y) = current_point (SCoord fn sx sy i j op :: past)) by now rewrite target_point.
  assert (AP : aperture_of (current_selection past) past = deref_ap (g_store st) (zget (g_ap st) (g_aps st)))
    by (rewrite <- Isel; symmetry; apply (Iaps (g_ap st))).
  pose proof (Iaps (g_ap st)) as (_ & AN & AS).
  rewrite marks_coord. cbv zeta. rewrite <- Ir, Icur, <- Ipol, <- Iu, AP, <- Ex.
  destruct (action past (SCoord fn sx sy i j op)) eqn:AC.
  - (* Draw *)
    unfold draw in O. destruct (g_region st) eqn:RG.
    + (* in a region *)
      assert (st3 = with_interp Linear (add_segment
         (match g_interp st with
          | Linear => SgLine (g_x st, g_y st) (x, y) (region_aperture st) (g_lpol st) (p_units (g_set st))
          | ArcMode => SgArc (g_x st, g_y st) (x, y) (find_center fc st (g_x st, g_y st) (x, y) (dflt_q i, dflt_q j)) (g_dir st) (region_aperture st) (g_quad st) (g_lpol st) (p_units (g_set st))
          end) st)) as ->.
      { destruct (g_interp st) eqn:IN; apply ok_inj in O; subst st3; [|reflexivity].
        unfold with_interp, add_segment, with_cur. cbn. now rewrite IN. }
      split.
      * split; st_simpl; unfold add_segment; st_simpl; auto.
        -- rewrite RG. exact Ir.
        -- rewrite motion_cons, AC, <- Ir. reflexivity.
        -- rewrite contour_cons, AC, <- Ir, Icur, AP, P. destruct (g_cur st) as [l|]; cbn [or_else map app]; rewrite ?map_app; cbn [map];
           destruct (g_interp st); cbn [deref_seg]; reflexivity.
        -- rewrite RG. discriminate.
      * exists []. split; [reflexivity|]. cbn [map]. rewrite app_nil_r. apply shown_same; reflexivity.
    + (* outside *)
      destruct (zget (g_ap st) (g_aps st)) as [l|] eqn:ZG; [|destruct (g_interp st); discriminate].
      destruct (AS l eq_refl) as [o F]. cbn [deref_ap]. rewrite F.
      assert (st3 = append (PStroke
         (match g_interp st with
          | Linear => SgLine (g_x st, g_y st) (x, y) (Some l) (g_lpol st) (p_units (g_set st))
          | ArcMode => SgArc (g_x st, g_y st) (x, y) (find_center fc st (g_x st, g_y st) (x, y) (dflt_q i, dflt_q j)) (g_dir st) (Some l) (g_quad st) (g_lpol st) (p_units (g_set st))
          end)) st) as ->.
      { destruct (g_interp st) eqn:IN; apply ok_inj in O; subst st3; reflexivity. }
      split.
      * split; st_simpl; auto.
        -- rewrite RG. exact Ir.
        -- rewrite motion_cons, AC, <- Ir. exact Im.
        -- rewrite contour_cons, AC, <- Ir. exact Icur.
      * eexists. split; [reflexivity|]. rewrite shown_append, P. cbn [map deref]. do 4 f_equal.
        destruct (g_interp st); cbn [deref_seg deref_ap]; now rewrite F.
  - (* Move *)
    apply ok_inj in O. subst st3. unfold move in *. destruct (g_region st) eqn:RG.
    + split.
      * split; st_simpl; auto; try (destruct (g_cur st) as [[|c1 [|c2 l]]|]; st_simpl; rewrite ?RG; auto; fail).
        -- rewrite motion_cons, AC. transitivity (motion_of st); [|exact Im]. destruct (g_cur st) as [[|c1 [|c2 l]]|]; reflexivity.
        -- rewrite contour_cons, AC, <- Ir. reflexivity.
      * destruct (g_cur st) as [[|c1 [|c2 l]]|]; cbn [or_else map];
          try (exists []; split; [reflexivity|]; cbn [map]; rewrite app_nil_r; apply shown_same; reflexivity).
        eexists. split; [reflexivity|]. transitivity (shown (append (PRegion (c1 :: c2 :: l) (g_lpol st) (p_units (g_set st))) st)).
        { apply shown_same; reflexivity. }
        rewrite shown_append. reflexivity.
    + split.
      * split; st_simpl; auto.
        -- rewrite RG. exact Ir.
        -- rewrite motion_cons, AC. exact Im.
        -- rewrite contour_cons, AC, <- Ir. exact Icur.
      * exists []. split; [reflexivity|]. cbn [map]. now rewrite app_nil_r.
  - (* Flash *)
    destruct (zget (g_ap st) (g_aps st)) as [l|] eqn:ZG; [|unfold flash in O; rewrite ZG in O; discriminate].
    destruct (AS l eq_refl) as [o F]. cbn [deref_ap]. rewrite F. rewrite (flash_eq st x y l o ZG F) in O. apply ok_inj in O. subst st3.
    pose proof V as [V1 V2 V3].
    split.
    + split; st_simpl; auto.
      * rewrite motion_cons, AC. exact Im.
      * now apply (aps_ok_app (SCoord fn sx sy i j op :: past)).
      * rewrite contour_cons, AC. transitivity (contour fc past); [destruct (in_region past); reflexivity|]. rewrite Icur. apply map_ext_in.
        intros z Hz. symmetry. apply deref_seg_app. destruct (g_cur st) as [lst|]; [|destruct Hz]. cbn in V2, Hz. rewrite Forall_forall in V2. auto.
    + eexists. split; [reflexivity|]. unfold shown. st_simpl. rewrite map_app. cbn [map deref].
      rewrite fetch_new. f_equal. apply map_ext_in. intros p Hp. apply deref_app. rewrite Forall_forall in V1. auto.
  - (* Other *)
    apply ok_inj in O. subst st3. split.
    + split; st_simpl; auto.
      * rewrite motion_cons, AC. exact Im.
      * rewrite contour_cons, AC. destruct (in_region past); exact Icur.
    + exists []. split; [reflexivity|]. cbn [map]. now rewrite app_nil_r.
Qed.

Lemma evaluate_step fc past st s st' s' : inv fc past st -> evaluate fc st s = Ok (st', s') ->
  inv fc (s :: past) st' /\ exists ms, marks fc past s = Some ms /\ shown st' = shown st ++ map Some ms.
Proof.
  intros I H.
  assert (D : (exists fn x y i j op, s = SCoord fn x y i j op) \/ (exists m, s = SReg m) \/
    ((forall fn x y i j op, s <> SCoord fn x y i j op) /\ (forall m, s <> SReg m))).
  { destruct s; try (right; right; split; discriminate); [left; now do 6 eexists|right; left; eauto]. }
  destruct D as [(fn & x & y & i & j & op & ->)|[(m & ->)|(NC & NR)]].
  - cbn [evaluate] in H. rewrite evaluate_coord_eq in H. cbv zeta in H.
    destruct (only_function fn x y i j op) eqn:OF.
    + apply ok_inj in H. injection H as <- _.
      destruct fn as [f|], x, y, i, j, op; try discriminate OF. clear OF.
      destruct (make_ready fc past st (Some f) None None None None None I) as [[Ipt Iop Isel Ipol Iu Iq Ir Im Imac Iaps Icur Ioff V] S].
      cbn [set_op] in *. split.
      * split; auto; cbn [contour action mode_only]; destruct (in_region past); auto.
      * exists []. cbn [map]. rewrite app_nil_r. auto.
    + set (s := SCoord fn x y i j op). destruct (make_ready fc past st fn x y i j op I) as [R S]. fold s in R.
      destruct (operate fc _ _ _ i j) as [st3|] eqn:O; [|discriminate]. cbn [bind] in H. apply ok_inj in H. injection H as <- _.
      assert (T0 : (match x with Some v => v | None => g_x st end, match y with Some v => v | None => g_y st end) = target past s).
      { unfold target, s. rewrite <- (i_pt _ _ _ I). cbn [fst snd]. destruct x, y; reflexivity. }
      destruct (operate_step fc past fn x y i j op _ _ _ st3 OF R T0 O) as (I' & ms & M & S').
      split; [exact I'|]. exists ms. split; [exact M|]. rewrite <- S, <- S'. apply shown_same; reflexivity.
  - cbn [evaluate] in H. apply ok_inj in H. injection H as <- _. now apply region_step.
  - destruct (plain_step fc past st s st' s' I NC NR H) as (I' & S & M). split; [exact I'|].
    exists []. cbn [map]. rewrite app_nil_r. auto.
Qed.

Lemma evaluate_error fc past st s e : inv fc past st ->
  (match s with
   | SAD _ name mods => exists dims rest sh, mods = dims :: rest /\ definition past name dims = Some sh
   | SAM _ body _ => exists i, read_macro body = Ok i
   | _ => True
   end) -> evaluate fc st s = Err e -> e = KeyError /\ marks fc past s = None.
Proof.
  intros I D H. destruct s; cbn [evaluate evaluate_param bind] in H; try discriminate H.
  - destruct param; discriminate H.
  - destruct D as (dims & rest & sh & -> & D). unfold define_aperture in H.
    rewrite (definition_build _ _ _ _ _ _ (i_macros _ _ _ I) D) in H. discriminate H.
  - destruct D as (ins & D). rewrite D in H. discriminate H.
  - rewrite evaluate_coord_eq in H. cbv zeta in H. destruct (only_function func x y i j op) eqn:OF; [discriminate H|].
    destruct (operate fc _ _ _ i j) as [st3|e'] eqn:O; [discriminate H|]. cbn [bind] in H. injection H as <-.
    destruct (make_ready fc past st func x y i j op I) as [R _]. set (s := SCoord func x y i j op) in *.
    rewrite operate_eq in O. destruct R as [Ipt Iop Isel Ipol Iu Iq Ir Im Imac Iaps Icur Ioff V].
    assert (A : operation_of (g_op (set_op op (set_function func st))) = action past s).
    { unfold s. rewrite (action_eq past) by exact OF. rewrite Iop. unfold current_op. rewrite latest_cons. destruct op; reflexivity. }
    rewrite A in O. clear A. unfold s. rewrite marks_coord. fold s. cbv zeta.
    set (st2 := set_op op (set_function func st)) in *.
    assert (AN : zget (g_ap st2) (g_aps st2) = None -> aperture_of (current_selection past) past = None).
    { intros Z0. rewrite <- Isel. now apply (Iaps (g_ap st2)). }
    assert (AF : forall l, zget (g_ap st2) (g_aps st2) = Some l -> exists o, fetch (g_store st2) l = Some o) by apply (Iaps (g_ap st2)).
    destruct (action past s); try discriminate O.
    + unfold draw in O. rewrite <- Ir. destruct (g_interp st2), (g_region st2); try discriminate O;
      (destruct (zget (g_ap st2) (g_aps st2)); [discriminate O|]; injection O as <-; now rewrite AN).
    + unfold flash in O. destruct (zget (g_ap st2) (g_aps st2)) as [l|] eqn:Z0.
      * destruct (AF l eq_refl) as [o F]. rewrite F in O. discriminate O.
      * injection O as <-. now rewrite AN.
Qed.

Lemma evaluate_image fc : forall l past st st' l', inv fc past st -> evaluate_all fc st l = Ok (st', l') ->
  inv fc (rev l ++ past) st' /\ exists ms, image fc past l = Some ms /\ shown st' = shown st ++ map Some ms.
Proof.
  induction l as [|s l IH]; intros past st st' l' I H; cbn [evaluate_all] in H.
  - apply ok_inj in H. injection H as <- _. split; [exact I|]. exists []. cbn [map]. now rewrite app_nil_r.
  - destruct (evaluate fc st s) as [[st1 s1]|] eqn:E; [|discriminate]. cbn [bind] in H.
    destruct (evaluate_all fc st1 l) as [[st2 l2]|] eqn:E2; [|discriminate]. cbn [bind] in H. apply ok_inj in H. injection H as <- _.
    destruct (evaluate_step _ _ _ _ _ _ I E) as (I1 & m1 & M1 & S1). destruct (IH _ _ _ _ I1 E2) as (I2 & m2 & M2 & S2).
    split; [cbn [rev]; rewrite <- app_assoc; exact I2|]. exists (m1 ++ m2). cbn [image]. rewrite M1, M2. split; [reflexivity|].
    rewrite S2, S1, map_app. now rewrite app_assoc.
Qed.
Lemma evaluate_all_error fc : forall l past st e, inv fc past st -> definitions_ok past l -> evaluate_all fc st l = Err e ->
  e = KeyError /\ image fc past l = None.
Proof.
  induction l as [|s l IH]; intros past st e I D H; cbn [evaluate_all] in H; [discriminate|]. destruct D as [D1 D2].
  destruct (evaluate fc st s) as [[st1 s1]|e1] eqn:E; cbn [bind] in H.
  - destruct (evaluate_all fc st1 l) as [[st2 l2]|e2] eqn:E2; [discriminate|]. cbn [bind] in H. injection H as ->.
    destruct (evaluate_step _ _ _ _ _ _ I E) as (I1 & m1 & M1 & S1). destruct (IH _ _ _ I1 D2 E2) as [K N].
    split; [exact K|]. cbn [image]. now rewrite M1, N.
  - injection H as ->. destruct (evaluate_error _ _ _ _ _ I D1 E) as [K N]. split; [exact K|]. cbn [image]. now rewrite N.
Qed.

(** C25 *)
Lemma with_op_same st : with_op (g_op st) st = st.
Proof. destruct st. reflexivity. Qed.
Lemma set_function_op fn st : g_op (set_function fn st) = g_op st.
Proof. now destruct (set_function_rest fn st) as (_ & _ & _ & _ & _ & _ & _ & H & _). Qed.
Lemma filled_step fc past st s s' : inv fc past st -> filled past s s' -> rmap fst (evaluate fc st s') = rmap fst (evaluate fc st s).
Proof.
  intros I F. destruct s; cbn [filled] in F; try (subst s'; reflexivity).
  destruct (mode_only (SCoord func x y i j op)) eqn:MO; [subst s'; reflexivity|].
  destruct F as (x' & y' & op' & -> & Fx & Fy & Fo). cbn [evaluate]. rewrite !evaluate_coord_eq. cbv zeta.
  assert (OF' : only_function func x' y' i j op' = false).
  { rewrite only_function_mode. destruct func as [f|]; [|reflexivity].
    destruct Fx as [->|[-> ->]], Fy as [->|[-> ->]], Fo as [->|[-> ->]];
    first [reflexivity | exact MO | clear - MO; repeat (match goal with o : option Qc |- _ => destruct o end); first [reflexivity | discriminate MO]]. }
  rewrite OF', (only_function_mode func x y i j op), MO.
  assert (X : match x' with Some v => v | None => g_x st end = match x with Some v => v | None => g_x st end).
  { destruct Fx as [->|[-> ->]]; [reflexivity|]. rewrite <- (i_pt _ _ _ I). reflexivity. }
  assert (Y : match y' with Some v => v | None => g_y st end = match y with Some v => v | None => g_y st end).
  { destruct Fy as [->|[-> ->]]; [reflexivity|]. rewrite <- (i_pt _ _ _ I). reflexivity. }
  assert (O : set_op op' (set_function func st) = set_op op (set_function func st)).
  { destruct Fo as [->|[-> ->]]; [reflexivity|]. cbn [set_op]. rewrite <- (i_op _ _ _ I), <- (set_function_op func st). apply with_op_same. }
  rewrite X, Y, O. destruct (operate fc _ _ _ i j); reflexivity.
Qed.
Lemma filled_same fc : forall past l l', filled_list past l l' -> forall st, inv fc past st ->
  rmap fst (evaluate_all fc st l') = rmap fst (evaluate_all fc st l).
Proof.
  assert (B : forall (r : res (gst * list stmt)) s, rmap fst (do r' <- r; let '(st, l) := r' in Ok (st, s :: l)) = rmap fst r).
  { intros [[st l]|e] s; reflexivity. }
  induction 1 as [past|past s s' l l' F FL IH]; intros st I; [reflexivity|].
  pose proof (filled_step fc past st s s' I F) as E. cbn [evaluate_all].
  destruct (evaluate fc st s) as [[st1 s1]|e1] eqn:E1, (evaluate fc st s') as [[st2 s2]|e2]; cbn [rmap fst] in E; try discriminate E.
  - apply ok_inj in E. subst st2. cbn [bind]. rewrite !B. apply IH. now destruct (evaluate_step _ _ _ _ _ _ I E1).
  - injection E as ->. reflexivity.
Qed.

(** C28 *)
Lemma in_region_cons s p : in_region (s :: p) = or_else (sets_region s) (in_region p).
Proof. apply latest_cons. Qed.
Lemma no_contour_outside fc : forall past, in_region past = Off -> contour fc past = [].
Proof.
  induction past as [|s p IH]; intros H; [reflexivity|]. rewrite in_region_cons in H.
  destruct s; cbn [sets_region or_else] in H; cbn [contour]; rewrite ?H; auto.
Qed.

Definition contour_fills (closed : list (list vseg * polarity * unit_)) : list mark :=
  flat_map (fun '(run, pol, u) => match run with _ :: _ :: _ => [Fill run pol u] | _ => [] end) closed.

Lemma region_image fc : forall body past ms, in_region past = On -> no_region_change body -> image fc past (body ++ [SReg Off]) = Some ms ->
  filter is_stroke ms = [] /\
  filter is_fill ms = let (closed, open) := contours (contour fc past) (region_events fc past body) in
    contour_fills closed ++ match open with [] => [] | _ => [Fill open (current_polarity (rev body ++ past)) (current_units (rev body ++ past))] end.
Proof.
  induction body as [|s body IH]; intros past ms R N H.
  - cbn [app image marks] in H. rewrite R in H. cbn [region_events contours rev app contour_fills flat_map].
    destruct (contour fc past); injection H as <-; auto.
  - inversion N as [|? ? N1 N2]; subst. cbn [app image] in H.
    assert (R' : in_region (s :: past) = On).
    { rewrite in_region_cons. destruct s; try exact R. exfalso. eapply N1. reflexivity. }
    destruct (marks fc past s) as [a|] eqn:M; [|discriminate]. destruct (image fc (s :: past) (body ++ [SReg Off])) as [b|] eqn:IM; [|discriminate].
    injection H as <-. destruct (IH _ _ R' N2 IM) as [S F]. clear IH.
    rewrite !filter_app, S, F. clear S F IM. cbn [rev]. rewrite <- app_assoc. cbn [app].
    assert (MK : marks fc past s = match action past s with
      | Move => match contour fc past with _ :: _ :: _ => Some [Fill (contour fc past) (current_polarity past) (current_units past)] | _ => Some [] end
      | Flash => match aperture_of (current_selection past) past with Some o => Some [Stamp (mkObj (o_shape o) (Some (target past s)) (current_polarity past) (current_units past))] | None => None end
      | _ => Some [] end).
    { unfold marks. rewrite R. destruct s; try reflexivity. exfalso. eapply N1. reflexivity. }
    assert (CT : contour fc (s :: past) = match action past s with Move => []
      | Draw => contour fc past ++ [path fc past s (aperture_of (current_selection past) past)] | _ => contour fc past end).
    { cbn [contour]. rewrite R. destruct s; try reflexivity. exfalso. eapply N1. reflexivity. }
    rewrite M in MK. cbn [region_events]. unfold region_event. rewrite CT. clear CT.
    destruct (action past s); cbn [app contours].
    + injection MK as ->. auto.
    + destruct (contours [] (region_events fc (s :: past) body)) as [c o]. cbn [contour_fills flat_map]. rewrite <- app_assoc.
      destruct (contour fc past) as [|c1 [|c2 l]]; injection MK as ->; auto.
    + destruct (aperture_of (current_selection past) past); [|discriminate]. injection MK as ->. auto.
    + injection MK as ->. auto.
Qed.

Lemma regions_filled fc before body st l' : in_region (rev before) = Off -> no_region_change body ->
  evaluate_all fc g_init (before ++ SReg On :: body ++ [SReg Off]) = Ok (st, l') ->
  exists st0 l0 ms, evaluate_all fc g_init before = Ok (st0, l0) /\ shown st = shown st0 ++ map Some ms /\
    filter is_stroke ms = [] /\ filter is_fill ms = region_fills fc (SReg On :: rev before) body.
Proof.
  intros R N H. rewrite evaluate_all_app in H. destruct (evaluate_all fc g_init before) as [[st0 l0]|] eqn:E; [|discriminate].
  cbn [bind] in H. destruct (evaluate_all fc st0 (SReg On :: body ++ [SReg Off])) as [[st2 b]|] eqn:E2; [|discriminate].
  cbn [bind] in H. apply ok_inj in H. injection H as <- _.
  destruct (evaluate_image fc _ _ _ _ _ (inv_init fc) E) as (I0 & _). rewrite app_nil_r in I0.
  destruct (evaluate_image fc _ _ _ _ _ I0 E2) as (_ & ms & IM & S). exists st0, l0, ms.
  split; [reflexivity|]. split; [exact S|]. cbn [image marks action] in IM.
  destruct (image fc (SReg On :: rev before) (body ++ [SReg Off])) as [b'|] eqn:IB; [|discriminate]. cbn [app] in IM. injection IM as <-.
  destruct (region_image fc body _ _ (in_region_cons (SReg On) (rev before)) N IB) as [A B].
  split; [exact A|]. rewrite B. unfold region_fills. cbn [contour action]. rewrite R, (no_contour_outside fc _ R). reflexivity.
Qed.

(** C30 *)
Lemma fold_min_least : forall l d, let m := fold_left (fun a v => qcmin v a) l d in
  (m = d \/ In m l) /\ m <= d /\ forall w, In w l -> m <= w.
Proof.
  induction l as [|v l IH]; intros d; cbv zeta; cbn [fold_left].
  - split; [now left|]. split; [qclra|]. intros w [].
  - destruct (IH (qcmin v d)) as (A & B & C). pose proof (qcmin_l v d). pose proof (qcmin_r v d).
    split; [|split].
    + destruct A as [A|A]; [|right; now right]. destruct (qcmin_case v d) as [E|E]; rewrite E in A at 2; [right; left; congruence|now left].
    + eapply Qcle_trans; eassumption.
    + intros w [<-|W]; [eapply Qcle_trans; eassumption|auto].
Qed.
Lemma fold_max_greatest : forall l d, let m := fold_left (fun a v => qcmax v a) l d in
  (m = d \/ In m l) /\ d <= m /\ forall w, In w l -> w <= m.
Proof.
  induction l as [|v l IH]; intros d; cbv zeta; cbn [fold_left].
  - split; [now left|]. split; [qclra|]. intros w [].
  - destruct (IH (qcmax v d)) as (A & B & C). pose proof (qcmax_l v d). pose proof (qcmax_r v d).
    split; [|split].
    + destruct A as [A|A]; [|right; now right]. destruct (qcmax_case v d) as [E|E]; rewrite E in A at 2; [right; left; congruence|now left].
    + eapply Qcle_trans; eassumption.
    + intros w [<-|W]; [eapply Qcle_trans; eassumption|auto].
Qed.
Lemma fold_least l d : l <> [] -> (forall v, In v l -> v <= d) -> least (fold_left (fun a v => qcmin v a) l d) l.
Proof.
  intros N L. destruct (fold_min_least l d) as (A & B & C). split; [|exact C]. destruct A as [A|A]; [|exact A].
  destruct l as [|v l]; [congruence|]. assert (E : fold_left (fun a v => qcmin v a) (v :: l) d = v).
  { apply Qcle_antisym; [apply C; now left|]. rewrite A. apply L. now left. }
  rewrite E. now left.
Qed.
Lemma fold_greatest l d : l <> [] -> (forall v, In v l -> d <= v) -> greatest (fold_left (fun a v => qcmax v a) l d) l.
Proof.
  intros N L. destruct (fold_max_greatest l d) as (A & B & C). split; [|exact C]. destruct A as [A|A]; [|exact A].
  destruct l as [|v l]; [congruence|]. assert (E : fold_left (fun a v => qcmax v a) (v :: l) d = v).
  { apply Qcle_antisym; [|apply C; now left]. rewrite A. apply L. now left. }
  rewrite E. now left.
Qed.

Lemma widen_folds : forall l a b c d, fold_left widen l ((a, b), (c, d)) =
  ((fold_left (fun m v => qcmin v m) (map (fun p => fst (fst p)) l) a, fold_left (fun m v => qcmax v m) (map (fun p => snd (fst p)) l) b),
   (fold_left (fun m v => qcmin v m) (map (fun p => fst (snd p)) l) c, fold_left (fun m v => qcmax v m) (map (fun p => snd (snd p)) l) d)).
Proof.
  induction l as [|[[a0 a1] [b0 b1]] l IH]; intros a b c d; [reflexivity|]. cbn [fold_left map fst snd widen]. apply IH.
Qed.
Lemma bounding_box_tight l : l <> [] -> limited sentinel (flat_map box_sides l) ->
  tight (file_bounding_box l) (map (fun p => fst (fst p)) l) (map (fun p => snd (fst p)) l)
        (map (fun p => fst (snd p)) l) (map (fun p => snd (snd p)) l).
Proof.
  intros N L. unfold file_bounding_box, box0. rewrite widen_folds.
  assert (M : forall (f : box -> Qc), map f l <> []) by (intros f; destruct l; [congruence|discriminate]).
  assert (LL : forall p v, In p l -> In v (box_sides p) -> - sentinel <= v /\ v <= sentinel).
  { intros p v P V. apply L. apply in_flat_map. eauto. }
  repeat split; cbn [fst snd];
    try (apply fold_least; [apply M|]; intros v V; apply in_map_iff in V as (p & <- & P); apply (LL p); [exact P|cbn; auto]);
    try (apply fold_greatest; [apply M|]; intros v V; apply in_map_iff in V as (p & <- & P); apply (LL p); [exact P|cbn; auto]).
Qed.
Lemma stmt_folds : forall l a b c d, fold_left widen_stmt l ((a, b), (c, d)) =
  ((fold_left (fun m v => qcmin v m) (x_coords l) a, fold_left (fun m v => qcmax v m) (x_coords l) b),
   (fold_left (fun m v => qcmin v m) (y_coords l) c, fold_left (fun m v => qcmax v m) (y_coords l) d)).
Proof.
  induction l as [|s l IH]; intros a b c d; [reflexivity|]. cbn [fold_left x_coords y_coords flat_map].
  destruct s; try apply IH. destruct x, y; cbn [widen_stmt app fold_left]; apply IH.
Qed.
Lemma bounds_tight l : x_coords l <> [] -> y_coords l <> [] -> limited sentinel (x_coords l ++ y_coords l) ->
  tight (file_bounds l) (x_coords l) (x_coords l) (y_coords l) (y_coords l).
Proof.
  intros NX NY L. unfold file_bounds, box0. rewrite stmt_folds.
  repeat split; cbn [fst snd];
    first [apply fold_least | apply fold_greatest]; auto; intros v V; apply L; apply in_or_app; auto.
Qed.
Lemma size_tight l : x_coords l <> [] -> y_coords l <> [] -> limited sentinel (x_coords l ++ y_coords l) ->
  exists x0 x1 y0 y1, least x0 (x_coords l) /\ greatest x1 (x_coords l) /\ least y0 (y_coords l) /\ greatest y1 (y_coords l) /\
    file_size l = (x1 - x0, y1 - y0).
Proof.
  intros NX NY L. pose proof (bounds_tight l NX NY L) as H. unfold file_size. destruct (file_bounds l) as [[x0 x1] [y0 y1]].
  destruct H as (A & B & C & D). exists x0, x1, y0, y1. auto.
Qed.
Lemma bounding_box_unlimited : exists l, l <> [] /\ ~ In (fst (fst (file_bounding_box l))) (map (fun p : box => fst (fst p)) l).
Proof.
  exists [((zq 2000000, zq 3000000), (0, 0))]. split; [discriminate|]. intros [H|[]].
  apply (f_equal (fun q => this q)) in H. vm_compute in H. discriminate.
Qed.

(** C29 *)
Lemma undefined_aperture fc l : definitions_ok [] l ->
  (image fc [] l = None -> evaluate_all fc g_init l = Err KeyError) /\
  (image fc [] l <> None -> is_ok (evaluate_all fc g_init l) = true).
Proof.
  intros D. destruct (evaluate_all fc g_init l) as [[st l']|e] eqn:E.
  - destruct (evaluate_image fc l [] g_init st l' (inv_init fc) E) as (_ & ms & M & _). split; [congruence|reflexivity].
  - destruct (evaluate_all_error fc l [] g_init e (inv_init fc) D E) as [-> N]. split; [reflexivity|congruence].
Qed.
Lemma marks_undefined fc past s : in_region past = Off -> aperture_of (current_selection past) past = None ->
  action past s = Draw \/ action past s = Flash -> marks fc past s = None.
Proof.
  intros R A H. unfold marks. rewrite R, A. destruct s; try (destruct H as [H|H]; discriminate H).
  destruct H as [H|H]; rewrite H; reflexivity.
Qed.
