(** Evaluation of converted statements. *)
From Verif Require Import GerberEvalProofs HeapProofs GerberConvProofs.
From Verif Require Export ScaleSpec.
Open Scope list_scope.
Open Scope Qc_scope.

Lemma T_inj a b : T a = T b -> a = b.
Proof. intros E. apply (f_equal string_of_list_ascii) in E. unfold T in E. now rewrite !string_of_list_ascii_of_string in E. Qed.

Section Scale.
Variable k : Qc.
Variable u : unit_.
Hypothesis kpos : 0 < k.
Hypothesis kto : forall q, to_unit u q = k * q.
Definition conv (s : stmt) : stmt := fst (convert_stmt u (s, other u)).
Definition sc_seg (s : seg) : seg :=
  match s with
  | SgLine a b ap pol _ => SgLine (times k a) (times k b) ap pol u
  | SgArc a b c d ap q pol _ => SgArc (times k a) (times k b) (omap (times k) c) d ap q pol u
  end.
Definition sc_prim (p : prim) : prim :=
  match p with PStroke s => PStroke (sc_seg s) | PRegion l pol _ => PRegion (map sc_seg l) pol u | PFlash l => PFlash l end.
Definition setu (v : unit_) (s : pset) : pset := mkPset (p_zs s) (p_fmt s) (p_abs s) v.
Definition sc_st (st : gst) : gst :=
  mkG (setu u (g_set st)) (map sc_prim (g_prims st)) (g_aps st) (g_macros st) (omap (map sc_seg) (g_cur st)) (k * g_x st) (k * g_y st)
      (g_op st) (g_ap st) (g_interp st) (g_dir st) (g_ipol st) (g_lpol st) (g_region st) (g_quad st) (map (enlarge_obj k u) (g_store st)).
Lemma sc_set_function fn st : set_function (unit_function u fn) (sc_st st) = sc_st (set_function fn st).
Proof.
  assert (O : forall l, (forall s, In s l -> s <> "G70"%string /\ s <> "G71"%string) -> otmem (unit_function u fn) l = otmem fn l).
  { intros l N. destruct fn as [t|]; [|now destruct u]. unfold unit_function. destruct u.
    - destruct (teq t (T "G71")) eqn:E; [|reflexivity]. apply teq_true in E. subst t. cbn [otmem]. unfold tmem. induction l as [|s l IH]; [reflexivity|].
      cbn [existsb]. rewrite IH by (intros; apply N; now right). destruct (N s (or_introl eq_refl)) as [N1 N2].
      destruct (teq (T "G70") (T s)) eqn:E1; [apply teq_true, T_inj in E1; congruence|]. destruct (teq (T "G71") (T s)) eqn:E2; [apply teq_true, T_inj in E2; congruence|]. reflexivity.
    - destruct (teq t (T "G70")) eqn:E; [|reflexivity]. apply teq_true in E. subst t. cbn [otmem]. unfold tmem. induction l as [|s l IH]; [reflexivity|].
      cbn [existsb]. rewrite IH by (intros; apply N; now right). destruct (N s (or_introl eq_refl)) as [N1 N2].
      destruct (teq (T "G70") (T s)) eqn:E1; [apply teq_true, T_inj in E1; congruence|]. destruct (teq (T "G71") (T s)) eqn:E2; [apply teq_true, T_inj in E2; congruence|]. reflexivity. }
  unfold set_function. rewrite !O by (cbn; intuition; subst; discriminate). destruct (otmem fn ["G01"; "G1"]%string); [reflexivity|].
  now destruct (otmem fn ["G02"; "G2"; "G03"; "G3"]%string).
Qed.
Lemma sc_set_op op st : set_op op (sc_st st) = sc_st (set_op op st).
Proof. now destruct op. Qed.
Lemma sc_add_segment s st : add_segment (sc_seg s) (sc_st st) = sc_st (add_segment s st).
Proof. unfold add_segment, with_cur, sc_st. cbn. destruct (g_cur st); cbn; [now rewrite map_app|reflexivity]. Qed.
Lemma sc_append p st : append (sc_prim p) (sc_st st) = sc_st (append p st).
Proof. unfold append, sc_st. cbn. now rewrite map_app. Qed.
Lemma sc_find_center fc st a b o : proportional fc ->
  find_center fc (sc_st st) (times k a) (times k b) (times k o) = omap (times k) (find_center fc st a b o).
Proof.
  intros E. unfold find_center. cbn [sc_st g_quad g_dir]. destruct (g_quad st); [now apply E|]. cbn [omap]. f_equal. unfold times. cbn. f_equal; ring.
Qed.
Lemma dflt_scale i : dflt_q (omap (to_unit u) i) = k * dflt_q i.
Proof. destruct i; cbn; [apply kto|ring]. Qed.
Lemma sc_operate fc st x y i j : proportional fc ->
  operate fc (sc_st st) (k * x) (k * y) (omap (to_unit u) i) (omap (to_unit u) j) = rmap sc_st (operate fc st x y i j).
Proof.
  intros EQ. unfold operate. change (g_op (sc_st st)) with (g_op st). destruct (tmem (g_op st) ["D01"; "D1"]%string).
  - unfold draw. change (g_interp (sc_st st)) with (g_interp st). change (g_region (sc_st st)) with (g_region st).
    change (zget (g_ap (sc_st st)) (g_aps (sc_st st))) with (zget (g_ap st) (g_aps st)).
    change (region_aperture (sc_st st)) with (region_aperture st).
    change (g_lpol (sc_st st)) with (g_lpol st). change (p_units (g_set (sc_st st))) with u.
    change (g_dir (sc_st st)) with (g_dir st). change (g_quad (sc_st st)) with (g_quad st).
    change (g_x (sc_st st), g_y (sc_st st)) with (times k (g_x st, g_y st)). change (k * x, k * y) with (times k (x, y)).
    rewrite !dflt_scale. change (k * dflt_q i, k * dflt_q j) with (times k (dflt_q i, dflt_q j)). cbv zeta. rewrite (sc_find_center fc st _ _ _ EQ).
    destruct (g_interp st), (g_region st).
    + cbn [rmap]. f_equal. apply (sc_add_segment (SgLine (g_x st, g_y st) (x, y) (region_aperture st) (g_lpol st) (p_units (g_set st)))).
    + destruct (zget (g_ap st) (g_aps st)) as [l|]; [|reflexivity]. cbn [rmap]. f_equal.
      apply (sc_append (PStroke (SgLine (g_x st, g_y st) (x, y) (Some l) (g_lpol st) (p_units (g_set st))))).
    + cbn [rmap]. f_equal.
      change (sc_st (with_interp Linear ?z)) with (with_interp Linear (sc_st z)). f_equal.
      apply (sc_add_segment (SgArc (g_x st, g_y st) (x, y) (find_center fc st (g_x st, g_y st) (x, y) (dflt_q i, dflt_q j)) (g_dir st) (region_aperture st) (g_quad st) (g_lpol st) (p_units (g_set st)))).
    + destruct (zget (g_ap st) (g_aps st)) as [l|]; [|reflexivity]. cbn [rmap]. f_equal.
      apply (sc_append (PStroke (SgArc (g_x st, g_y st) (x, y) (find_center fc st (g_x st, g_y st) (x, y) (dflt_q i, dflt_q j)) (g_dir st) (Some l) (g_quad st) (g_lpol st) (p_units (g_set st))))).
  - destruct (tmem (g_op st) ["D02"; "D2"]%string).
    + cbn [rmap]. f_equal. unfold move. change (g_region (sc_st st)) with (g_region st). destruct (g_region st); [|reflexivity].
      change (g_cur (sc_st st)) with (omap (map sc_seg) (g_cur st)). change (g_lpol (sc_st st)) with (g_lpol st). change (p_units (g_set (sc_st st))) with u.
      destruct (g_cur st) as [[|s1 [|s2 l]]|]; try reflexivity. cbn [omap map].
      unfold with_cur, append, sc_st. cbn. now rewrite map_app.
    + destruct (tmem (g_op st) ["D03"; "D3"]%string); [|reflexivity].
      destruct (zget (g_ap st) (g_aps st)) as [l|] eqn:E.
      2:{ unfold flash. change (zget (g_ap (sc_st st)) (g_aps (sc_st st))) with (zget (g_ap st) (g_aps st)). now rewrite E. }
      destruct (fetch (g_store st) l) as [o|] eqn:F.
      2:{ unfold flash. change (zget (g_ap (sc_st st)) (g_aps (sc_st st))) with (zget (g_ap st) (g_aps st)). rewrite E.
          change (fetch (g_store (sc_st st)) l) with (nth_error (map (enlarge_obj k u) (g_store st)) l). rewrite nth_error_map. unfold fetch in *. now rewrite F. }
      rewrite (flash_eq st x y l o E F).
      rewrite (flash_eq (sc_st st) (k * x) (k * y) l (enlarge_obj k u o)).
      * cbn [rmap]. f_equal. unfold append, with_store, sc_st. cbn. rewrite !map_app, map_length. reflexivity.
      * exact E.
      * change (fetch (g_store (sc_st st)) l) with (nth_error (map (enlarge_obj k u) (g_store st)) l). rewrite nth_error_map. unfold fetch in F. now rewrite F.
Qed.
Lemma map_to l : map (to_unit u) l = map (Qcmult k) l.
Proof. apply map_ext. exact kto. Qed.
Lemma index_map {A B} (f : A -> B) l n : index (map f l) n = rmap f (index l n).
Proof. unfold index. rewrite nth_error_map. now destruct (nth_error l n). Qed.
Lemma nth_scale l n : nth n (map (Qcmult k) l) 0 = k * nth n l 0.
Proof. replace 0 with (k * 0) at 1 by ring. now rewrite map_nth. Qed.
Lemma hole_scale m n b : hole (map (Qcmult k) m) n b = (let '(a, w, h) := hole m n b in (k * a, k * w, k * h)).
Proof.
  unfold hole. rewrite map_length, !nth_scale. assert (Z : k * 0 = 0) by ring. destruct (Nat.eqb _ _); [now rewrite Z|]. destruct (if b then _ else _); now rewrite !Z.
Qed.
Lemma build_scale macros shape mods : shape = T "C" \/ shape = T "R" \/ shape = T "O" ->
  build_aperture macros shape (map (map (to_unit u)) mods) = rmap (enlarge_shape k) (build_aperture macros shape mods).
Proof.
  intros S. unfold build_aperture. replace (map (map (to_unit u)) mods) with (map (map (Qcmult k)) mods) by (apply map_ext; intros; now rewrite map_to).
  rewrite !index_map. destruct S as [E|[E|E]]; subst shape.
  - change (teq (T "C") (T "C")) with true. cbv iota. destruct (index mods 0) as [m|]; [|reflexivity]. cbn [rmap bind]. rewrite index_map. destruct (index m 0); [|reflexivity].
    cbn [rmap bind]. rewrite hole_scale. now destruct (hole m 1 false) as [[? ?] ?].
  - change (teq (T "R") (T "C")) with false. change (teq (T "R") (T "R")) with true. cbv iota. destruct (index mods 0) as [m|]; [|reflexivity]. cbn [rmap bind]. rewrite !index_map. destruct (index m 0); [|reflexivity].
    cbn [rmap bind]. destruct (index m 1); [|reflexivity]. cbn [rmap bind]. rewrite hole_scale. now destruct (hole m 2 false) as [[? ?] ?].
  - change (teq (T "O") (T "C")) with false. change (teq (T "O") (T "R")) with false. change (teq (T "O") (T "O")) with true. cbv iota. destruct (index mods 0) as [m|]; [|reflexivity]. cbn [rmap bind]. rewrite !index_map. destruct (index m 0); [|reflexivity].
    cbn [rmap bind]. destruct (index m 1); [|reflexivity]. cbn [rmap bind]. rewrite hole_scale. now destruct (hole m 2 false) as [[? ?] ?].
Qed.
Lemma conv_is s : conv s = match s with
  | SMO p _ => SMO p u
  | SAD d sh mods => SAD d sh (map (map (to_unit u)) mods)
  | SOF a b => SOF (omap (to_unit u) a) (omap (to_unit u) b)
  | SSF a b => SSF (omap (to_unit u) a) (omap (to_unit u) b)
  | SCoord fn x y i j op => SCoord (unit_function u fn) (omap (to_unit u) x) (omap (to_unit u) y) (omap (to_unit u) i) (omap (to_unit u) j) op
  | _ => s
  end.
Proof. unfold conv, convert_stmt. rewrite unit_eqb_other'. now destruct s. Qed.
Lemma only_function_conv fn x y i j op : only_function (unit_function u fn) (omap (to_unit u) x) (omap (to_unit u) y) (omap (to_unit u) i) (omap (to_unit u) j) op = only_function fn x y i j op.
Proof. destruct fn as [t|]; [|now destruct u, x]. assert (E : exists t', unit_function u (Some t) = Some t') by (unfold unit_function; destruct u, (teq t _); eauto). destruct E as (t' & ->). now destruct x, y, i, j, op. Qed.
Lemma sc_evaluate fc st s : proportional fc -> agrees (other u) s -> plain_apertures s ->
  evaluate fc (sc_st st) (conv s) = rmap (fun r => (sc_st (fst r), conv (snd r))) (evaluate fc st s).
Proof.
  intros EQ A NO. destruct s; try (rewrite conv_is; cbn [evaluate evaluate_param bind rmap fst snd]; rewrite conv_is; reflexivity).
  - rewrite conv_is. cbn [evaluate evaluate_param]. destruct param; cbn [bind rmap fst snd]; now rewrite conv_is.
  - rewrite conv_is. cbn [evaluate evaluate_param plain_apertures] in *. unfold define_aperture. change (g_macros (sc_st st)) with (g_macros st).
    rewrite (build_scale _ _ _ NO). destruct (build_aperture (g_macros st) shape mods) as [sh|]; [|reflexivity]. cbn [bind alloc rmap fst snd]. rewrite conv_is. f_equal. f_equal.
    unfold with_aps, sc_st. cbn. rewrite map_app, map_length. reflexivity.
  - contradiction.
  - rewrite conv_is. cbn [evaluate]. rewrite !evaluate_coord_eq. cbv zeta. rewrite sc_set_function, only_function_conv.
    destruct (only_function func x y i j op). { cbn [rmap fst snd]. now rewrite conv_is. }
    rewrite sc_set_op.
    assert (X : match omap (to_unit u) x with Some v => v | None => g_x (sc_st st) end = k * (match x with Some v => v | None => g_x st end)) by (destruct x; cbn; auto).
    assert (Y : match omap (to_unit u) y with Some v => v | None => g_y (sc_st st) end = k * (match y with Some v => v | None => g_y st end)) by (destruct y; cbn; auto).
    rewrite X, Y, (sc_operate fc _ _ _ _ _ EQ). destruct (operate fc (set_op op (set_function func st)) _ _ i j) as [st3|]; [|reflexivity]. cbn [bind rmap fst snd]. now rewrite conv_is.
  - rewrite conv_is. cbn [evaluate rmap fst snd]. rewrite conv_is. f_equal. f_equal. unfold evaluate_region_mode. change (g_region (sc_st st)) with (g_region st).
    change (g_cur (sc_st st)) with (omap (map sc_seg) (g_cur st)). change (g_lpol (sc_st st)) with (g_lpol st). change (p_units (g_set (sc_st st))) with u.
    destruct (g_region st), m; try reflexivity. destruct (g_cur st) as [[|s1 l]|]; try reflexivity. cbn [omap map].
    unfold with_region, with_cur, append, sc_st. cbn. now rewrite map_app.
Qed.
Lemma sc_evaluate_all fc : proportional fc -> forall l st, Forall (agrees (other u)) l -> Forall plain_apertures l ->
  evaluate_all fc (sc_st st) (map conv l) = rmap (fun r => (sc_st (fst r), map conv (snd r))) (evaluate_all fc st l).
Proof.
  intros EQ. induction l as [|s l IH]; intros st A F; [reflexivity|]. cbn [map evaluate_all]. inversion F; subst. inversion A; subst. rewrite sc_evaluate by assumption.
  destruct (evaluate fc st s) as [[st1 s1]|] eqn:E; [|reflexivity]. cbn [rmap bind fst snd]. rewrite (IH st1) by assumption.
  destruct (evaluate_all fc st1 l) as [[st2 l2]|]; reflexivity.
Qed.

(** ** Before the unit is declared *)
Definition raw (st : gst) : Prop := g_store st = [] /\ g_prims st = [] /\ g_cur st = None /\ g_x st = 0 /\ g_y st = 0.
Definition inu (v : unit_) (st : gst) : gst := with_set (setu v (g_set st)) st.
Lemma pre_step fc v st s : raw st -> defines_nothing s -> plain_apertures s ->
  exists st1 s1 v', evaluate fc st s = Ok (st1, s1) /\ evaluate fc (inu v st) (conv s) = Ok (inu v' st1, conv s1) /\ raw st1.
Proof.
  intros (S & P & C & X & Y) D A. destruct s; try contradiction; rewrite conv_is;
    try (do 2 eexists; exists v; split; [reflexivity|split; [cbn [evaluate bind evaluate_param]; rewrite ?conv_is; reflexivity|repeat split; assumption]]; fail).
  - destruct param; do 2 eexists.
    + exists u. split; [reflexivity|]. split; [rewrite conv_is; reflexivity|repeat split; assumption].
    + exists v. split; [reflexivity|]. split; [rewrite conv_is; reflexivity|repeat split; assumption].
  - do 2 eexists. exists v. split; [reflexivity|]. rewrite conv_is. cbn [evaluate]. unfold evaluate_region_mode. change (g_region (inu v st)) with (g_region st). change (g_cur (inu v st)) with (g_cur st). rewrite C.
    destruct (g_region st), m; (split; [reflexivity|repeat split; assumption]).
Qed.
Lemma pre_all fc : forall l v st, raw st -> Forall defines_nothing l -> Forall plain_apertures l ->
  exists st1 l1 v', evaluate_all fc st l = Ok (st1, l1) /\ evaluate_all fc (inu v st) (map conv l) = Ok (inu v' st1, map conv l1) /\ raw st1.
Proof.
  induction l as [|s l IH]; intros v st R D A.
  - exists st, [], v. auto.
  - inversion D; subst. inversion A; subst. destruct (pre_step fc v st s R) as (st1 & s1 & v1 & E1 & E2 & R1); [assumption..|].
    destruct (IH v1 st1 R1) as (st2 & l2 & v2 & E3 & E4 & R2); [assumption..|]. exists st2, (s1 :: l2), v2. cbn [map evaluate_all]. rewrite E1, E2. cbn [bind]. rewrite E3, E4. auto.
Qed.
Lemma raw_scaled st : raw st -> sc_st st = inu u st.
Proof.
  intros (S & P & C & X & Y). unfold sc_st, inu, with_set. rewrite S, P, C, X, Y. cbn [map omap]. replace (k * 0) with 0 by ring. reflexivity.
Qed.
Lemma sc_file fc l : proportional fc -> declared (other u) l -> Forall plain_apertures l ->
  evaluate_all fc g_init (map conv l) = rmap (fun r => (sc_st (fst r), map conv (snd r))) (evaluate_all fc g_init l).
Proof.
  intros EQ (AG & pre & post & -> & D) A. apply Forall_app in A as [A1 A2]. inversion A2; subst. apply Forall_app in AG as [_ AG]. inversion AG; subst.
  rewrite map_app, !evaluate_all_app. destruct (pre_all fc pre (p_units pset0) g_init) as (st1 & l1 & v & E1 & E2 & R); [repeat split|assumption..|].
  rewrite E1. change (inu (p_units pset0) g_init) with g_init in E2. rewrite E2. cbn [bind map].
  set (st2 := inu (other u) st1).
  assert (Q1 : evaluate_all fc st1 (SMO true (other u) :: post) = do r <- evaluate_all fc st2 post; let '(a, b) := r in Ok (a, SMO true (other u) :: b)) by reflexivity.
  assert (Q2 : evaluate_all fc (inu v st1) (conv (SMO true (other u)) :: map conv post) = do r <- evaluate_all fc (sc_st st2) (map conv post); let '(a, b) := r in Ok (a, SMO true u :: b)).
  { rewrite (raw_scaled st2) by exact R. rewrite conv_is. reflexivity. }
  rewrite Q1, Q2, (sc_evaluate_all fc EQ) by assumption. destruct (evaluate_all fc st2 post) as [[st3 l3]|]; [|reflexivity]. cbn [rmap bind fst snd].
  f_equal. f_equal. rewrite map_app. cbn [map]. now rewrite conv_is.
Qed.

(** ** The image *)
Lemma sc_deref_ap h ap : deref_ap (map (enlarge_obj k u) h) ap = omap (enlarge_obj k u) (deref_ap h ap).
Proof. destruct ap as [l|]; [|reflexivity]. cbn [deref_ap]. unfold fetch. rewrite nth_error_map. now destruct (nth_error h l). Qed.
Lemma sc_deref_seg h s : deref_seg (map (enlarge_obj k u) h) (sc_seg s) = enlarge_seg k u (deref_seg h s).
Proof. destruct s; cbn [sc_seg deref_seg enlarge_seg]; now rewrite sc_deref_ap. Qed.
Lemma sc_deref h p : deref (map (enlarge_obj k u) h) (sc_prim p) = option_map (enlarge k u) (deref h p).
Proof.
  destruct p as [s|l pol v|l]; cbn [deref sc_prim option_map enlarge].
  - now rewrite sc_deref_seg.
  - rewrite !map_map. do 2 f_equal. apply map_ext. intros s. apply sc_deref_seg.
  - unfold fetch. rewrite nth_error_map. now destruct (nth_error h l).
Qed.
Lemma sc_shown st ms : shown st = map Some ms -> shown (sc_st st) = map Some (map (enlarge k u) ms).
Proof.
  unfold shown. cbn [sc_st g_store g_prims]. revert ms. induction (g_prims st) as [|p ps IH]; intros [|m ms] E; try discriminate; [reflexivity|].
  cbn [map] in *. injection E as E1 E2. rewrite sc_deref, E1. now rewrite (IH ms).
Qed.

End Scale.

(** ** The objects *)
Lemma to_factor u q : to_unit u q = factor u * q.
Proof. destruct u; unfold to_unit, factor, mm_per_inch; field; discriminate. Qed.
Lemma factor_positive u : 0 < factor u.
Proof. now destruct u. Qed.
Section Objects.
Variable u : unit_.
Notation k := (factor u).
Notation sc_seg := (ScaleProofs.sc_seg k u).
Notation sc_prim := (ScaleProofs.sc_prim k u).
Notation sc_st := (ScaleProofs.sc_st k u).
Lemma rescale_point p : rescale_value k (vpoint p) = vpoint (times k p).
Proof. reflexivity. Qed.
Lemma rescale_opt p : rescale_value k (vopt p) = vopt (omap (times k) p).
Proof. now destruct p. Qed.
Lemma sc_obj_of o : obj_of (enlarge_obj k u o) = rescaled u (obj_of o).
Proof. destruct o as [sh p pol v]. destruct sh; unfold obj_of, rescaled; cbn -[factor]; rewrite ?rescale_opt; reflexivity. Qed.
Lemma sc_seg_obj s l : seg_obj (sc_seg s) l = rescaled u (seg_obj s l).
Proof. destruct s; unfold seg_obj, rescaled; cbn -[factor]; rewrite ?rescale_opt; reflexivity. Qed.
Lemma rescale_refs ls : map (rescale_value k) (map VRef ls) = map VRef ls.
Proof. rewrite map_map. apply map_ext. reflexivity. Qed.
Lemma sc_region ls v : new_region ls (Some u) = rescaled u (new_region ls (Some v)).
Proof. unfold new_region, rescaled. cbn -[factor]. now rewrite rescale_refs. Qed.
Lemma sc_place_seg n s : place_seg n (sc_seg s) = (map (rescaled u) (fst (place_seg n s)), snd (place_seg n s)).
Proof.
  unfold place_seg. assert (E : seg_ap (sc_seg s) = seg_ap s) by now destruct s. rewrite E. destruct (seg_ap s); cbn [fst snd map]; now rewrite sc_seg_obj.
Qed.
Lemma sc_place_segs l : forall n, place_segs n (map sc_seg l) = (map (rescaled u) (fst (place_segs n l)), snd (place_segs n l)).
Proof.
  induction l as [|s l IH]; intros n; [reflexivity|]. cbn [map place_segs]. rewrite sc_place_seg. destruct (place_seg n s) as [os x]. cbn [fst snd]. rewrite map_length, IH.
  destruct (place_segs (n + List.length os) l) as [os' xs]. cbn [fst snd]. now rewrite map_app.
Qed.
Lemma sc_place n p : place n (sc_prim p) = (map (rescaled u) (fst (place n p)), snd (place n p)).
Proof.
  destruct p as [s|l pol v|l]; cbn [ScaleProofs.sc_prim place]; [apply sc_place_seg| |reflexivity].
  rewrite sc_place_segs. destruct (place_segs n l) as [os xs]. cbn [fst snd]. rewrite map_app, map_length, (sc_region xs v). reflexivity.
Qed.
Lemma sc_place_all ps : forall n, place_all n (map sc_prim ps) = (map (rescaled u) (fst (place_all n ps)), snd (place_all n ps)).
Proof.
  induction ps as [|p ps IH]; intros n; [reflexivity|]. cbn [map place_all]. rewrite sc_place. destruct (place n p) as [os x]. cbn [fst snd]. rewrite map_length, IH.
  destruct (place_all (n + List.length os) ps) as [os' xs]. cbn [fst snd]. now rewrite map_app.
Qed.
Lemma sc_heap_of st : heap_of (sc_st st) = map (rescaled u) (heap_of st) /\ roots_of (sc_st st) = roots_of st.
Proof.
  unfold heap_of, roots_of. cbn [ScaleProofs.sc_st g_store g_prims]. rewrite map_length, sc_place_all. cbn [fst snd]. split; [|reflexivity].
  rewrite map_app. f_equal. rewrite !map_map. apply map_ext. apply sc_obj_of.
Qed.
End Objects.

Lemma converted_statements w l : map fst (map (convert_stmt (other w)) (map (fun s : stmt => (s, w)) l)) = map (conv (other w)) l.
Proof. rewrite !map_map. apply map_ext. intros s. unfold conv. now destruct w. Qed.
Lemma declared_in_unit w l : declared w l -> all_in_unit w l.
Proof. intros (A & B). split; [exact A|now right]. Qed.
Lemma C126_lemma fc w l f f' ms : proportional fc -> declared w l -> Forall plain_apertures l ->
  open_file fc l = Ok f -> image fc [] l = Some ms -> file_to (other w) f = Ok f' ->
  image fc [] (map fst (f_stmts f')) = Some (map (enlarge (factor (other w)) (other w)) ms) /\
  exists f2, open_file fc (map fst (f_stmts f')) = Ok f2 /\ f_units f2 = other w /\ f_prims f2 = f_prims f' /\
    (no_single_segment fc l -> Forall lengths_only l -> forall x m, In x (f_prims f) -> part_of (f_heap f) x m -> hget (f_heap f2) m = hget (f_heap f') m).
Proof.
  intros EQ D PA O IM FT. pose proof (declared_in_unit w l D) as AU.
  assert (EX : no_single_segment fc l -> Forall lengths_only l -> converted (other w) f f').
  { intros NS LO. destruct (open_file_exact fc w l f AU NS LO O) as (f1 & A & B). rewrite FT in A. apply ok_inj in A. now subst f1. }
  pose proof O as O'. unfold open_file in O. destruct (evaluate_all fc g_init l) as [[st l']|] eqn:E; [|discriminate]. cbn [bind] in O. apply ok_inj in O. subst f.
  destruct (evaluate_image fc l [] g_init st l' (inv_init fc) E) as (_ & ms' & IM' & SH). rewrite IM in IM'. injection IM' as <-.
  assert (U : p_units (g_set st) = w) by (destruct (open_file_in fc w l _ AU O') as (A & _); exact A).
  destruct (file_to_ok w _ (open_file_in fc w l _ AU O')) as (f1 & A & A1 & A2 & A3). rewrite FT in A. apply ok_inj in A. subst f1.
  assert (ST : map fst (f_stmts f') = map (conv (other w)) l').
  { unfold file_to in FT. cbn [f_units f_stmts f_heap f_prims] in FT. rewrite U, unit_eqb_other in FT. destruct (convert_all _ _ _ _); [|discriminate]. cbn [bind] in FT. apply ok_inj in FT. subst f'.
    cbn [f_stmts]. apply converted_statements. }
  rewrite ST. assert (D' : declared (other (other w)) l) by (now destruct w).
  pose proof (sc_file (factor (other w)) (other w) (factor_positive _) (to_factor _) fc l EQ D' PA) as SC. rewrite E in SC. cbn [rmap fst snd] in SC.
  pose proof (evaluate_all_again fc _ _ _ _ SC) as AG. split.
  - destruct (evaluate_image fc _ [] g_init _ _ (inv_init fc) AG) as (_ & ms2 & IM2 & SH2). rewrite IM2. f_equal.
    rewrite (sc_shown (factor (other w)) (other w) st ms SH) in SH2. clear -SH2. revert ms2 SH2. generalize (map (enlarge (factor (other w)) (other w)) ms). intros a b. revert b.
    induction a as [|x a IH]; intros [|y b] E; try discriminate; [reflexivity|]. cbn in E. injection E as <- E. f_equal. now apply IH.
  - unfold open_file. rewrite AG. cbn [bind]. eexists. split; [reflexivity|]. cbn [f_units f_prims f_heap]. destruct (sc_heap_of (other w) st) as [H1 H2]. split; [reflexivity|]. split.
    + rewrite H2, A2. reflexivity.
    + intros NS LO x m I P. destruct (EX NS LO) as (_ & _ & _ & _ & C & _). cbn [f_heap f_prims] in C. rewrite (C x m I P), H1. unfold hget. apply nth_error_map.
Qed.
