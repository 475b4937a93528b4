(** Proofs about unit conversion and offset of Gerber files. *)
From Verif Require Import PyBase QcLib NumModel MacroModel GerberText GerberEval GerberEvalSpec GerberEvalProofs HeapModel HeapSpec HeapProofs GerberConv GerberConvSpec.
Open Scope list_scope.
Open Scope Qc_scope.

(** ** Statements *)
Lemma to_unit_back w q : to_unit w (to_unit (other w) q) = q.
Proof. rewrite !to_unit_factor. rewrite Qcmult_assoc. pose proof (factor_inverse (other w)) as E. rewrite other_other in E. rewrite E. ring. Qed.
Lemma omap_back w o : omap (to_unit w) (omap (to_unit (other w)) o) = o.
Proof. destruct o; cbn; [now rewrite to_unit_back|reflexivity]. Qed.
Lemma map_back w l : map (to_unit w) (map (to_unit (other w)) l) = l.
Proof. rewrite map_map. transitivity (map (fun x : Qc => x) l); [|apply map_id]. apply map_ext. intros. apply to_unit_back. Qed.
Lemma map_map_back w l : map (map (to_unit w)) (map (map (to_unit (other w))) l) = l.
Proof. rewrite map_map. transitivity (map (fun x : list Qc => x) l); [|apply map_id]. apply map_ext. intros. apply map_back. Qed.
Lemma unit_eqb_other w : unit_eqb w (other w) = false.
Proof. now destruct w. Qed.
Lemma unit_eqb_other' w : unit_eqb (other w) w = false.
Proof. now destruct w. Qed.
Lemma unit_eqb_refl w : unit_eqb w w = true.
Proof. now destruct w. Qed.
Lemma unit_function_back w fn : (forall t, fn = Some t -> t <> other_code w) -> unit_function w (unit_function (other w) fn) = fn.
Proof.
  destruct fn as [t|]; [|reflexivity]. intros N. specialize (N t eq_refl).
  destruct w; cbn [unit_function other unit_code] in *.
  - destruct (teq t (T "G70")) eqn:E; [apply teq_true in E; subst; reflexivity|]. cbn [unit_function].
    destruct (teq t (T "G71")) eqn:E2; [apply teq_true in E2; contradiction|reflexivity].
  - destruct (teq t (T "G71")) eqn:E; [apply teq_true in E; subst; reflexivity|]. cbn [unit_function].
    destruct (teq t (T "G70")) eqn:E2; [apply teq_true in E2; contradiction|reflexivity].
Qed.
Lemma convert_stmt_back w s : agrees w s -> convert_stmt w (convert_stmt (other w) (s, w)) = (s, w).
Proof.
  intros A. destruct s; cbn [convert_stmt agrees] in *; rewrite ?unit_eqb_other; cbn [convert_stmt]; rewrite ?unit_eqb_other';
    rewrite ?map_map_back, ?omap_back; try reflexivity.
  - now rewrite A.
  - rewrite unit_function_back; [reflexivity|]. intros t ->. exact A.
Qed.
Lemma convert_stmts_back w l : Forall (fun s => snd s = w /\ agrees w (fst s)) l ->
  map (convert_stmt w) (map (convert_stmt (other w)) l) = l.
Proof.
  induction 1 as [|[s u] l [U A] F IH]; [reflexivity|]. cbn [map snd fst] in *. subst u. now rewrite IH, convert_stmt_back.
Qed.
Lemma omap_scale u o : omap (to_unit u) o = scale_o (factor u) o.
Proof. destruct o; cbn; [now rewrite to_unit_factor|reflexivity]. Qed.
Lemma unit_function_code u fn : unit_function u fn = match fn with Some t => Some (if teq t (other_code u) then unit_code u else t) | None => None end.
Proof. destruct fn as [t|], u; cbn; try reflexivity; destruct (teq t _); reflexivity. Qed.
Lemma map_scale u l : map (to_unit u) l = map (Qcmult (factor u)) l.
Proof. apply map_ext. intros. apply to_unit_factor. Qed.
Lemma convert_stmt_exact u s : lengths_only s -> fst (convert_stmt u (s, other u)) = in_other_unit u s.
Proof.
  intros L. destruct s; cbn [convert_stmt in_other_unit lengths_only] in *; try contradiction; rewrite ?unit_eqb_other'; cbn [fst];
    rewrite ?omap_scale, ?unit_function_code; try reflexivity.
  - f_equal. apply map_ext. intros m. rewrite map_scale. unfold scale_dims. destruct L as [-> | [-> | ->]]; reflexivity.
Qed.
(** Statements that are neither lengths nor unit declarations are left alone. *)
Lemma convert_stmt_idle u s : (forall p m, s <> SMO p m) -> fst (convert_stmt u (s, u)) = s.
Proof. intros N. destruct s; cbn [convert_stmt]; rewrite ?unit_eqb_refl; try reflexivity. exfalso. now eapply N. Qed.

(** ** Files *)
Lemma file_to_ok w f : file_in w f -> exists f', file_to (other w) f = Ok f' /\ f_units f' = other w /\ f_prims f' = f_prims f /\
  f_stmts f' = map (convert_stmt (other w)) (f_stmts f) /\ convert_all (enough (f_heap f)) (other w) (f_heap f) (f_prims f) = Ok (f_heap f').
Proof.
  intros (U & S & P & R & A). unfold file_to. rewrite U, unit_eqb_other.
  destruct (convert_all_ok (other w) _ _ P R) as (X & E & _). fold (enough (f_heap f)). rewrite E. cbn [bind]. eexists. split; [reflexivity|]. cbn. auto.
Qed.
Lemma file_seq_ok w f f' us : file_in w f -> file_to (other w) f = Ok f' ->
  file_seq us f = Ok (if unit_eqb (last us w) w then f else f').
Proof.
  intros I E. destruct (file_to_ok w f I) as (f1 & E1 & U1 & P1 & S1 & C1). rewrite E in E1. apply ok_inj in E1. subst f1.
  destruct I as (U & S & P & R & A).
  assert (I0 : file_to w f = Ok f) by (unfold file_to; now rewrite U, unit_eqb_refl).
  assert (I1 : file_to (other w) f' = Ok f') by (unfold file_to; now rewrite U1, unit_eqb_refl).
  assert (B : file_to w f' = Ok f).
  { unfold file_to. rewrite U1, unit_eqb_other'. fold (enough (f_heap f')).
    pose proof (conversion_back (other w) (f_heap f) (f_prims f) (f_heap f') P R) as CB. rewrite other_other in CB. destruct (CB A C1) as (CB1 & _).
    rewrite P1, CB1. cbn [bind]. rewrite S1, (convert_stmts_back _ _ S). rewrite <- U. now destruct f. }
  assert (Z : forall us, file_seq us f = Ok (if unit_eqb (last us w) w then f else f') /\
              file_seq us f' = Ok (if unit_eqb (last us (other w)) w then f else f')).
  { intros vs. unfold file_seq. induction vs as [|v vs [IH1 IH2]].
    - cbn. rewrite unit_eqb_refl, unit_eqb_other'. auto.
    - assert (LC : forall d, last (v :: vs) d = last vs v)
        by (clear; revert v; induction vs as [|x t IH]; intros v d; [reflexivity|]; change (last (x :: t) d = last (x :: t) v); now rewrite !IH).
      rewrite !LC. cbn [foldM]. assert (V : v = w \/ v = other w) by (destruct v, w; auto). destruct V; subst v.
      + rewrite I0, B. cbn [bind]. auto.
      + rewrite E, I1. cbn [bind]. auto. }
  apply Z.
Qed.
Lemma file_to_exact w f : file_in w f -> no_single_lists (f_heap f) -> Forall (fun s => lengths_only (fst s)) (f_stmts f) ->
  exists f', file_to (other w) f = Ok f' /\ converted (other w) f f'.
Proof.
  intros I NS LO. destruct (file_to_ok w f I) as (f' & E & U & P & S & C). exists f'. split; [exact E|]. destruct I as (U0 & S0 & P0 & R0 & A0).
  split; [exact U|]. split; [exact P|]. split.
  - rewrite S, !map_map. apply map_ext_in. intros [s u] M. rewrite Forall_forall in LO, S0. destruct (S0 _ M) as [Su _]. cbn [snd fst] in *. subst u.
    rewrite <- (other_other w) at 2. apply convert_stmt_exact. exact (LO _ M).
  - destruct (conversion_exact (other w) (f_heap f) (f_prims f) P0 NS R0) as (h' & E' & X); [now rewrite other_other|].
    rewrite C in E'. apply ok_inj in E'. now subst h'.
Qed.

(** ** What one statement may add *)
Definition seg_units (s : seg) : unit_ := match s with SgLine _ _ _ _ u => u | SgArc _ _ _ _ _ _ _ u => u end.
Definition same_content (st st' : gst) : Prop :=
  p_units (g_set st') = p_units (g_set st) /\ g_store st' = g_store st /\ g_prims st' = g_prims st /\ g_cur st' = g_cur st.
Definition is_def (s : stmt) : Prop := match s with SAD _ _ _ => True | _ => False end.
Definition is_coord (s : stmt) : Prop := match s with SCoord _ _ _ _ _ _ => True | _ => False end.
Inductive grow (s : stmt) (st st' : gst) : Prop :=
| G_same : same_content st st' -> grow s st st'
| G_units u : s = SMO true u -> p_units (g_set st') = u -> g_store st' = g_store st -> g_prims st' = g_prims st -> g_cur st' = g_cur st -> grow s st st'
| G_def o : is_def s -> p_units (g_set st') = p_units (g_set st) -> g_store st' = g_store st ++ [o] -> o_pos o = None -> o_units o = p_units (g_set st) ->
    g_prims st' = g_prims st -> g_cur st' = g_cur st -> grow s st st'
| G_fill l pol : p_units (g_set st') = p_units (g_set st) -> g_store st' = g_store st -> g_cur st = Some l ->
    g_prims st' = g_prims st ++ [PRegion l pol (p_units (g_set st))] -> g_cur st' = None -> grow s st st'
| G_drop : p_units (g_set st') = p_units (g_set st) -> g_store st' = g_store st -> g_prims st' = g_prims st -> g_cur st' = None -> grow s st st'
| G_seg x : is_coord s -> seg_units x = p_units (g_set st) -> p_units (g_set st') = p_units (g_set st) -> g_store st' = g_store st -> g_prims st' = g_prims st ->
    g_cur st' = Some (or_else (g_cur st) [] ++ [x]) -> grow s st st'
| G_stroke x : is_coord s -> seg_units x = p_units (g_set st) -> p_units (g_set st') = p_units (g_set st) -> g_store st' = g_store st ->
    g_prims st' = g_prims st ++ [PStroke x] -> g_cur st' = g_cur st -> grow s st st'
| G_flash o p : is_coord s -> o_units o = p_units (g_set st) -> o_pos o = Some p -> p_units (g_set st') = p_units (g_set st) ->
    g_store st' = g_store st ++ [o] -> g_prims st' = g_prims st ++ [PFlash (List.length (g_store st))] -> g_cur st' = g_cur st -> grow s st st'.
Ltac same := apply G_same; repeat split; reflexivity.
Lemma add_segment_grow s x st st' : is_coord s -> seg_units x = p_units (g_set st) -> same_content (add_segment x st) st' -> grow s st st'.
Proof.
  intros D U (A & B & C & E). eapply (G_seg s st st' x); try assumption. rewrite E. unfold add_segment. st_simpl. now destruct (g_cur st).
Qed.
Lemma operate_grow fc st x y i j st' fn sx sy op : operate fc st x y i j = Ok st' -> grow (SCoord fn sx sy i j op) st st'.
Proof.
  set (s := SCoord fn sx sy i j op). assert (D : is_coord s) by exact I.
  intros H. unfold operate in H. destruct (tmem (g_op st) ["D01"; "D1"]%string).
  - unfold draw in H. destruct (g_interp st), (g_region st).
    + apply ok_inj in H. subst st'. eapply add_segment_grow; [exact D| |repeat split]; reflexivity.
    + destruct (zget (g_ap st) (g_aps st)) as [l|]; [|discriminate]. apply ok_inj in H. subst st'. eapply G_stroke; try reflexivity; try exact D; reflexivity.
    + apply ok_inj in H. subst st'. eapply add_segment_grow; [exact D| |repeat split; reflexivity]. reflexivity.
    + destruct (zget (g_ap st) (g_aps st)) as [l|]; [|discriminate]. apply ok_inj in H. subst st'. eapply G_stroke; try reflexivity; try exact D; reflexivity.
  - destruct (tmem (g_op st) ["D02"; "D2"]%string).
    + apply ok_inj in H. subst st'. unfold move. destruct (g_region st); [|same].
      destruct (g_cur st) as [[|s1 [|s2 l]]|] eqn:E; try (apply G_drop; reflexivity). eapply G_fill; [reflexivity|reflexivity|exact E|reflexivity|reflexivity].
    + destruct (tmem (g_op st) ["D03"; "D3"]%string); [|apply ok_inj in H; subst; same].
      unfold flash in H. destruct (zget (g_ap st) (g_aps st)) as [l|] eqn:E; [|discriminate].
      destruct (fetch (g_store st) l) as [o|] eqn:F; [|discriminate]. cbn [alloc] in H. rewrite !assign_new in H. apply ok_inj in H. subst st'.
      eapply G_flash with (p := (x, y)); try reflexivity; try exact D; reflexivity.
Qed.
Lemma grow_pre s st0 st st' : same_content st0 st -> grow s st st' -> grow s st0 st'.
Proof.
  intros (A & B & C & D) G. destruct G.
  - destruct H as (A' & B' & C' & D'). apply G_same. repeat split; congruence.
  - eapply G_units; eauto; congruence.
  - eapply (G_def _ _ _ o); eauto; try congruence.
  - eapply (G_fill _ _ _ l pol); try congruence.
  - apply G_drop; congruence.
  - eapply (G_seg _ _ _ x); try congruence.
  - eapply (G_stroke _ _ _ x); try congruence.
  - eapply (G_flash _ _ _ o p); try congruence.
Qed.
Lemma grow_post s st st1 st' : grow s st st1 -> same_content st1 st' -> grow s st st'.
Proof.
  intros G (A & B & C & D). destruct G.
  - destruct H as (A' & B' & C' & D'). apply G_same. repeat split; congruence.
  - eapply G_units; eauto; congruence.
  - eapply (G_def _ _ _ o); eauto; try congruence.
  - eapply (G_fill _ _ _ l pol); try congruence.
  - apply G_drop; congruence.
  - eapply (G_seg _ _ _ x); try congruence.
  - eapply (G_stroke _ _ _ x); try congruence.
  - eapply (G_flash _ _ _ o p); try congruence.
Qed.
Lemma set_function_same fn st : same_content st (set_function fn st).
Proof. unfold set_function. destruct (otmem fn _); [repeat split|]. destruct (otmem fn ["G02"; "G2"; "G03"; "G3"]%string); repeat split. Qed.
Lemma set_op_same op st : same_content st (set_op op st).
Proof. destruct op; repeat split. Qed.
Lemma same_trans a b c : same_content a b -> same_content b c -> same_content a c.
Proof. intros (A & B & C & D) (A' & B' & C' & D'). repeat split; congruence. Qed.
Lemma evaluate_grow fc st s st' s' : evaluate fc st s = Ok (st', s') -> grow s st st'.
Proof.
  intros H. destruct s; cbn [evaluate] in H;
  try (apply ok_inj in H; injection H as <- _; same);
  try (cbn [evaluate_param bind] in H; apply ok_inj in H; injection H as <- _; same).
  - destruct param; cbn [evaluate_param bind] in H; apply ok_inj in H; injection H as <- _; [|same]. eapply G_units; reflexivity.
  - cbn [evaluate_param] in H. unfold define_aperture in H. destruct (build_aperture _ _ _) as [sh|]; [|discriminate]. cbn [bind alloc] in H.
    apply ok_inj in H. injection H as <- _. eapply G_def; try reflexivity; exact I.
  - cbn [evaluate_param] in H. destruct (read_macro macro); [|discriminate]. cbn [bind] in H. apply ok_inj in H. injection H as <- _. same.
  - rewrite evaluate_coord_eq in H. cbv zeta in H. destruct (only_function func x y i j op).
    { apply ok_inj in H. injection H as <- _. apply G_same. apply set_function_same. }
    destruct (operate fc _ _ _ i j) as [st3|] eqn:O; [|discriminate]. cbn [bind] in H. apply ok_inj in H. injection H as <- _.
    eapply grow_pre; [eapply same_trans; [apply set_function_same|apply set_op_same]|]. eapply grow_post; [eapply operate_grow; exact O|repeat split].
  - apply ok_inj in H. injection H as <- _. unfold evaluate_region_mode. destruct (g_region st), m; try same.
    destruct (g_cur st) as [[|s1 l]|] eqn:E; try (apply G_drop; reflexivity). eapply G_fill; [reflexivity|reflexivity|exact E|reflexivity|reflexivity].
Qed.

(** ** Units *)
Definition prim_in (w : unit_) (p : prim) : Prop :=
  match p with PStroke s => seg_units s = w | PRegion l _ u => Forall (fun s => seg_units s = w) l /\ u = w | PFlash _ => True end.
Definition uniform (w : unit_) (st : gst) : Prop :=
  p_units (g_set st) = w /\ Forall (fun o => o_units o = w) (g_store st) /\ Forall (prim_in w) (g_prims st) /\
  Forall (fun s => seg_units s = w) (or_else (g_cur st) []).
Lemma grow_uniform w s st st' : agrees w s -> grow s st st' -> uniform w st -> uniform w st'.
Proof.
  intros A G (U & S & P & C). unfold uniform.
  destruct G.
  - destruct H as (A' & B' & C' & D'). rewrite A', B', C', D'. auto.
  - subst s. cbn in A. subst u. rewrite H1, H2, H3. auto.
  - rewrite H0, H1, H4, H5. split; [auto|]. split; [apply Forall_app; split; [exact S|constructor; [congruence|constructor]]|auto].
  - rewrite H, H0, H2, H3. rewrite H1 in C. cbn [or_else] in *. split; [exact U|]. split; [exact S|]. split; [|constructor].
    apply Forall_app. split; [exact P|]. constructor; [cbn; auto|constructor].
  - rewrite H, H0, H1, H2. cbn. auto.
  - rewrite H1, H2, H3, H4. cbn [or_else]. split; [exact U|]. split; [exact S|]. split; [exact P|]. apply Forall_app. split; [exact C|].
    constructor; [congruence|constructor].
  - rewrite H1, H2, H3, H4. split; [exact U|]. split; [exact S|]. split; [|exact C]. apply Forall_app. split; [exact P|].
    constructor; [cbn; congruence|constructor].
  - rewrite H2, H3, H4, H5. split; [exact U|]. split; [apply Forall_app; split; [exact S|constructor; [congruence|constructor]]|].
    split; [|exact C]. apply Forall_app. split; [exact P|]. constructor; [exact I|constructor].
Qed.
Definition blank (st : gst) : Prop := g_store st = [] /\ g_prims st = [] /\ (g_cur st = None \/ g_cur st = Some []).
Lemma grow_blank s st st' : defines_nothing s -> grow s st st' -> blank st -> (forall l, g_cur st <> Some l) ->
  blank st' /\ (forall l, g_cur st' <> Some l).
Proof.
  intros D G (S & P & C) N. destruct G; try (destruct s; contradiction); unfold blank.
  - destruct H as (A' & B' & C' & D'). rewrite B', C', D'. auto.
  - rewrite H1, H2, H3. auto.
  - exfalso. now apply (N l).
  - rewrite H0, H1, H2. split; [auto|discriminate].
Qed.
Lemma evaluate_all_uniform fc w : forall l st st' l', Forall (agrees w) l -> evaluate_all fc st l = Ok (st', l') -> uniform w st -> uniform w st'.
Proof.
  induction l as [|s l IH]; intros st st' l' F H U; cbn [evaluate_all] in H; inversion F as [|? ? A F']; subst.
  - apply ok_inj in H. injection H as <- _. exact U.
  - destruct (evaluate fc st s) as [[st1 s1]|] eqn:E; [|discriminate]. cbn [bind] in H.
    destruct (evaluate_all fc st1 l) as [[st2 l2]|] eqn:E2; [|discriminate]. cbn [bind] in H. apply ok_inj in H. injection H as <- _.
    eapply IH; [exact F'|exact E2|]. eapply grow_uniform; [exact A|eapply evaluate_grow; exact E|exact U].
Qed.
Lemma evaluate_all_blank fc : forall l st st' l', Forall defines_nothing l -> evaluate_all fc st l = Ok (st', l') ->
  blank st -> (forall x, g_cur st <> Some x) -> blank st' /\ (forall x, g_cur st' <> Some x).
Proof.
  induction l as [|s l IH]; intros st st' l' F H B N; cbn [evaluate_all] in H; inversion F as [|? ? A F']; subst.
  - apply ok_inj in H. injection H as <- _. auto.
  - destruct (evaluate fc st s) as [[st1 s1]|] eqn:E; [|discriminate]. cbn [bind] in H.
    destruct (evaluate_all fc st1 l) as [[st2 l2]|] eqn:E2; [|discriminate]. cbn [bind] in H. apply ok_inj in H. injection H as <- _.
    destruct (grow_blank s st st1 A (evaluate_grow _ _ _ _ _ E) B N) as [B1 N1]. eapply IH; eauto.
Qed.
Lemma evaluated_uniform fc w l st l' : all_in_unit w l -> evaluate_all fc g_init l = Ok (st, l') -> uniform w st.
Proof.
  intros (A & [->|(pre & post & -> & D)]) H.
  - eapply evaluate_all_uniform; [exact A|exact H|]. repeat split; constructor.
  - rewrite evaluate_all_app in H. destruct (evaluate_all fc g_init pre) as [[st1 l1]|] eqn:E1; [|discriminate]. cbn [bind] in H.
    destruct (evaluate_all fc st1 (SMO true w :: post)) as [[st2 l2]|] eqn:E2; [|discriminate]. cbn [bind] in H. apply ok_inj in H. injection H as <- _.
    destruct (evaluate_all_blank fc pre g_init st1 l1 D E1) as [(S & P & C) N]; [repeat split; auto|discriminate|].
    apply Forall_app in A as [A1 A2]. inversion A2 as [|? ? _ A3]; subst. cbn [evaluate_all evaluate evaluate_param bind] in E2.
    destruct (evaluate_all fc _ post) as [[st3 l3]|] eqn:E3; [|discriminate]. cbn [bind] in E2. apply ok_inj in E2. injection E2 as <- _.
    eapply evaluate_all_uniform; [exact A3|exact E3|]. repeat split; st_simpl; rewrite ?S, ?P; try constructor.
    destruct C as [-> | ->]; constructor.
Qed.

(** ** The object graph *)
Lemma place_seg_length n s : exists k, List.length (fst (place_seg n s)) = Datatypes.S k /\ snd (place_seg n s) = (n + k)%nat.
Proof. unfold place_seg. destruct (seg_ap s); cbn; [exists 0%nat|exists 1%nat]; split; try reflexivity; lia. Qed.
Ltac proper_class :=
  split; [repeat (constructor; [cbn; intuition discriminate|]); constructor|];
  split; [cbn; repeat (constructor; [cbn; intuition discriminate|]); constructor|];
  let A := fresh in intros ? A; cbn in A;
  repeat (destruct A as [<- | A]; [cbn [getattr po_attrs String.eqb Ascii.eqb Bool.eqb]; eexists; (split; [reflexivity|])|]); try destruct A.
Lemma vpoint_proper n p : proper n (vpoint p).
Proof. apply Proper_point. exists (VNum (fst p)), (VNum (snd p)), []. split; [reflexivity|]. repeat constructor; eexists; reflexivity. Qed.
Lemma vopt_proper n p : proper n (vopt p).
Proof. destruct p; cbn; [apply vpoint_proper|constructor]. Qed.
Lemma refs_proper n ls : Forall (fun l => l < n)%nat ls -> proper n (VSeq false (map VRef ls)).
Proof. apply Proper_objs. Qed.
Lemma proper_obj_of n o : proper_obj n (obj_of o).
Proof.
  unfold obj_of. destruct (o_shape o); proper_class; first [apply vopt_proper | apply (refs_proper n []); constructor | constructor].
Qed.
Lemma proper_no_aperture n : proper_obj n no_aperture.
Proof. proper_class; try apply vpoint_proper; constructor. Qed.
Lemma proper_seg n s l : (l < n)%nat -> proper_obj n (seg_obj s l).
Proof. intros L. destruct s; proper_class; try apply vpoint_proper; try apply vopt_proper; now constructor. Qed.
Lemma proper_region n ls u : Forall (fun l => l < n)%nat ls -> proper_obj n (new_region ls u).
Proof. intros F. proper_class. now apply refs_proper. Qed.
Lemma seg_ok_ap n s : seg_ok n s <-> ap_ok n (seg_ap s).
Proof. now destruct s. Qed.
Lemma place_seg_proper n m s : seg_ok n s -> (n <= m)%nat -> forall N, (m + List.length (fst (place_seg m s)) <= N)%nat ->
  Forall (proper_obj N) (fst (place_seg m s)) /\ (m <= snd (place_seg m s) < m + List.length (fst (place_seg m s)))%nat.
Proof.
  intros S L N H. apply seg_ok_ap in S. unfold place_seg in *. destruct (seg_ap s) as [l|]; cbn [fst snd List.length] in *.
  - cbn in S. split; [constructor; [|constructor]|lia]. apply proper_seg. lia.
  - split; [constructor; [apply proper_no_aperture|constructor; [|constructor]]|lia]. apply proper_seg. lia.
Qed.
Lemma place_segs_proper n l : Forall (seg_ok n) l -> forall m N, (n <= m)%nat -> (m + List.length (fst (place_segs m l)) <= N)%nat ->
  Forall (proper_obj N) (fst (place_segs m l)) /\ Forall (fun x => m <= x < m + List.length (fst (place_segs m l)))%nat (snd (place_segs m l)) /\
  NoDup (snd (place_segs m l)).
Proof.
  induction 1 as [|s l S F IH]; intros m N L H; [repeat split; constructor|]. cbn [place_segs] in *.
  pose proof (place_seg_proper n m s S L N) as PS. destruct (place_seg m s) as [os x]. destruct (place_segs (m + List.length os) l) as [os' xs] eqn:E.
  cbn [fst snd] in *. rewrite app_length in *. destruct PS as [PS1 PS2]; [lia|].
  specialize (IH (m + List.length os)%nat N). rewrite E in IH. cbn [fst snd] in IH. destruct IH as (I1 & I2 & I3); [lia|lia|].
  split; [apply Forall_app; auto|]. split.
  - constructor; [lia|]. eapply Forall_impl; [|exact I2]. cbn. intros; lia.
  - constructor; [|exact I3]. intros X. rewrite Forall_forall in I2. apply I2 in X. lia.
Qed.
(** The objects moved by an offset: strokes, regions with their segments, flashes. *)
Fixpoint moved_locs (n : nat) (ps : list prim) : list loc :=
  match ps with
  | [] => []
  | p :: ps' =>
      snd (place n p) :: (match p with PRegion l _ _ => snd (place_segs n l) | _ => [] end) ++ moved_locs (n + List.length (fst (place n p))) ps'
  end.
Lemma place_proper n p : prim_ok n p -> forall m N, (n <= m)%nat -> (m + List.length (fst (place m p)) <= N)%nat ->
  Forall (proper_obj N) (fst (place m p)) /\ (snd (place m p) < m + List.length (fst (place m p)))%nat /\
  (match p with PFlash _ => True | _ => (m <= snd (place m p))%nat end).
Proof.
  intros P m N L H. destruct p as [s|l pol u|l]; cbn [place prim_ok] in *.
  - destruct (place_seg_proper n m s P L N H) as [A B]. split; [exact A|lia].
  - pose proof (place_segs_proper n l P m N L) as PS. destruct (place_segs m l) as [os xs]. cbn [fst snd] in *. rewrite app_length in *. cbn [List.length] in *.
    destruct PS as (A & B & C); [lia|]. split; [apply Forall_app; split; [exact A|]; constructor; [|constructor]|lia].
    apply proper_region. eapply Forall_impl; [|exact B]. cbn. intros; lia.
  - cbn. split; [constructor|]. split; [lia|exact I].
Qed.
Lemma place_all_proper n ps : Forall (prim_ok n) ps -> forall m N, (n <= m)%nat -> (m + List.length (fst (place_all m ps)) <= N)%nat ->
  Forall (proper_obj N) (fst (place_all m ps)) /\ Forall (fun x => x < N)%nat (snd (place_all m ps)).
Proof.
  induction 1 as [|p ps P F IH]; intros m N L H; [repeat split; constructor|]. cbn [place_all] in *.
  pose proof (place_proper n p P m N L) as PP. destruct (place m p) as [os x]. destruct (place_all (m + List.length os) ps) as [os' xs] eqn:E.
  cbn [fst snd] in *. rewrite app_length in *. destruct PP as (P1 & P2 & _); [lia|].
  specialize (IH (m + List.length os)%nat N). rewrite E in IH. cbn [fst snd] in IH. destruct IH as (I1 & I2); [lia|lia|].
  split; [apply Forall_app; auto|]. constructor; [lia|exact I2].
Qed.
Lemma heap_of_proper st : valid st -> proper_heap (heap_of st) /\ Forall (fun l => l < List.length (heap_of st))%nat (roots_of st).
Proof.
  intros [P _ _]. unfold proper_heap, heap_of, roots_of.
  destruct (place_all_proper _ _ P (List.length (g_store st)) (List.length (map obj_of (g_store st) ++ fst (place_all (List.length (g_store st)) (g_prims st))))) as [A B].
  - lia.
  - rewrite app_length, map_length. lia.
  - split; [|exact B]. apply Forall_app. split; [|exact A]. apply Forall_forall. intros o I. apply in_map_iff in I as (x & <- & _). apply proper_obj_of.
Qed.
Definition obj_in (w : unit_) (o : pobj) : Prop := po_units o = Some w \/ (po_units o = None /\ parts o = []).
Lemma place_seg_in w m s : seg_units s = w -> Forall (obj_in w) (fst (place_seg m s)).
Proof.
  intros U. unfold place_seg. destruct (seg_ap s) as [l|]; cbn [fst].
  - constructor; [|constructor]. left. destruct s; cbn in *; congruence.
  - constructor; [right; split; reflexivity|]. constructor; [|constructor]. left. destruct s; cbn in *; congruence.
Qed.
Lemma place_segs_in w l : Forall (fun s => seg_units s = w) l -> forall m, Forall (obj_in w) (fst (place_segs m l)).
Proof.
  induction 1 as [|s l U F IH]; intros m; [constructor|]. cbn [place_segs]. pose proof (place_seg_in w m s U) as A. destruct (place_seg m s) as [os x].
  specialize (IH (m + List.length os)%nat). destruct (place_segs (m + List.length os) l) as [os' xs]. cbn [fst] in *. now apply Forall_app.
Qed.
Lemma place_all_in w ps : Forall (prim_in w) ps -> forall m, Forall (obj_in w) (fst (place_all m ps)).
Proof.
  induction 1 as [|p ps U F IH]; intros m; [constructor|]. cbn [place_all].
  assert (A : Forall (obj_in w) (fst (place m p))).
  { destruct p as [s|l pol u|l]; cbn [place prim_in] in *; [now apply place_seg_in| |constructor]. destruct U as [U ->].
    pose proof (place_segs_in w l U m) as A. destruct (place_segs m l) as [os xs]. cbn [fst] in *. apply Forall_app. split; [exact A|].
    constructor; [left; reflexivity|constructor]. }
  destruct (place m p) as [os x]. specialize (IH (m + List.length os)%nat). destruct (place_all (m + List.length os) ps) as [os' xs]. cbn [fst] in *. now apply Forall_app.
Qed.
Lemma heap_of_in w st : uniform w st -> all_in w (heap_of st) (roots_of st).
Proof.
  intros (_ & S & P & _) l m o _ _ G. unfold heap_of, hget in G. apply nth_error_In in G. apply in_app_iff in G as [G|G].
  - apply in_map_iff in G as (x & <- & I). rewrite Forall_forall in S. left. rewrite <- (S x I). unfold obj_of. now destruct (o_shape x).
  - pose proof (place_all_in w _ P (List.length (g_store st))) as F. rewrite Forall_forall in F. now apply F.
Qed.
Definition no_single (o : pobj) : Prop := forall a t v, In a (lengths o) -> snd a <> VSeq t [v].
Ltac single_class := let A := fresh in intros ? ? ? A E; unfold lengths in A; apply filter_In in A as [A _]; cbn in A;
  repeat (destruct A as [<- | A]; [cbn in E; first [discriminate | idtac]|]); try destruct A.
Lemma vopt_single p t v : vopt p <> VSeq t [v].
Proof. destruct p; discriminate. Qed.
Lemma single_obj_of o : no_single (obj_of o).
Proof. unfold obj_of. destruct (o_shape o); single_class; now apply vopt_single in E. Qed.
Lemma place_seg_single m s : Forall no_single (fst (place_seg m s)).
Proof.
  assert (S : forall l, no_single (seg_obj s l)) by (intros l; destruct s; single_class; now apply vopt_single in E).
  unfold place_seg. destruct (seg_ap s); cbn [fst]; repeat constructor; auto. single_class.
Qed.
Lemma place_segs_single l : forall m, Forall no_single (fst (place_segs m l)) /\ List.length (snd (place_segs m l)) = List.length l.
Proof.
  induction l as [|s l IH]; intros m; [split; constructor|]. cbn [place_segs]. pose proof (place_seg_single m s) as A. destruct (place_seg m s) as [os x].
  specialize (IH (m + List.length os)%nat). destruct (place_segs (m + List.length os) l) as [os' xs]. cbn [fst snd] in *. destruct IH as [I1 I2].
  split; [now apply Forall_app|]. cbn. now rewrite I2.
Qed.
Lemma single_region ls u : List.length ls <> 1%nat -> no_single (new_region ls u).
Proof.
  intros N. single_class. destruct ls as [|a [|b ls]]; try discriminate. now apply N.
Qed.
Lemma place_all_single ps : (forall s pol u, ~ In (PRegion [s] pol u) ps) -> forall m, Forall no_single (fst (place_all m ps)).
Proof.
  induction ps as [|p ps IH]; intros N m; [constructor|]. cbn [place_all].
  assert (A : Forall no_single (fst (place m p))).
  { destruct p as [s|l pol u|l]; cbn [place]; [apply place_seg_single| |constructor].
    pose proof (place_segs_single l m) as [A B]. destruct (place_segs m l) as [os xs]. cbn [fst snd] in *. apply Forall_app. split; [exact A|].
    constructor; [|constructor]. apply single_region. rewrite B. intros L. destruct l as [|s [|s' l]]; try discriminate. apply (N s pol u). now left. }
  destruct (place m p) as [os x]. assert (IH' : Forall no_single (fst (place_all (m + List.length os) ps))) by (apply IH; intros s pol u X; apply (N s pol u); now right).
  destruct (place_all (m + List.length os) ps) as [os' xs]. cbn [fst] in *. now apply Forall_app.
Qed.
Lemma heap_of_single st : (forall s pol u, ~ In (PRegion [s] pol u) (g_prims st)) -> no_single_lists (heap_of st).
Proof.
  intros N l o a t v G I. unfold heap_of, hget in G. apply nth_error_In in G.
  assert (F : Forall no_single (heap_of st)).
  { unfold heap_of. apply Forall_app. split; [|now apply place_all_single]. apply Forall_forall. intros x X. apply in_map_iff in X as (y & <- & _). apply single_obj_of. }
  rewrite Forall_forall in F. exact (F o G a t v I).
Qed.
Lemma evaluate_agrees fc w st s st' s' : evaluate fc st s = Ok (st', s') -> agrees w s -> agrees w s' /\ (lengths_only s -> lengths_only s').
Proof.
  intros H A. destruct s; cbn [evaluate] in H;
  try (apply ok_inj in H; injection H as _ <-; auto; fail);
  try (match type of H with bind ?e _ = _ => destruct e as [st1|] eqn:E; [|discriminate] end; cbn [bind] in H; apply ok_inj in H; injection H as _ <-; auto; fail).
  rewrite evaluate_coord_eq in H. cbv zeta in H. destruct (only_function func x y i j op).
  { apply ok_inj in H. injection H as _ <-. auto. }
  destruct (operate fc _ _ _ i j) as [st3|] eqn:O; [|discriminate]. cbn [bind] in H. apply ok_inj in H. injection H as _ <-. cbn in *. auto.
Qed.
Lemma evaluate_all_agrees fc w : forall l st st' l', evaluate_all fc st l = Ok (st', l') -> Forall (agrees w) l ->
  Forall (agrees w) l' /\ (Forall lengths_only l -> Forall lengths_only l').
Proof.
  induction l as [|s l IH]; intros st st' l' H F; cbn [evaluate_all] in H; inversion F as [|? ? A F']; subst.
  - apply ok_inj in H. injection H as _ <-. split; auto.
  - destruct (evaluate fc st s) as [[st1 s1]|] eqn:E; [|discriminate]. cbn [bind] in H.
    destruct (evaluate_all fc st1 l) as [[st2 l2]|] eqn:E2; [|discriminate]. cbn [bind] in H. apply ok_inj in H. injection H as _ <-.
    destruct (evaluate_agrees _ w _ _ _ _ E A) as [A1 L1]. destruct (IH _ _ _ E2 F') as [A2 L2]. split; [constructor; auto|].
    intros L. inversion L; subst. constructor; auto.
Qed.
Lemma open_file_in fc w l f : all_in_unit w l -> open_file fc l = Ok f -> file_in w f.
Proof.
  intros A H. unfold open_file in H. destruct (evaluate_all fc g_init l) as [[st l']|] eqn:E; [|discriminate]. cbn [bind] in H. apply ok_inj in H. subst f.
  pose proof (evaluated_uniform fc w l st l' A E) as U. destruct (evaluate_all_extends fc l _ _ _ valid_init E) as [V _].
  destruct (heap_of_proper st V) as [P R]. split; [apply U|]. cbn [f_stmts f_heap f_prims]. split.
  - destruct (evaluate_all_agrees fc w l _ _ _ E (proj1 A)) as [A' _]. apply Forall_forall. intros [s u] I. apply in_map_iff in I as (s' & X & I).
    injection X as <- <-. cbn [fst snd]. split; [apply U|]. rewrite Forall_forall in A'. auto.
  - split; [exact P|]. split; [exact R|]. now apply heap_of_in.
Qed.
Lemma open_file_exact fc w l f : all_in_unit w l -> no_single_segment fc l -> Forall lengths_only l -> open_file fc l = Ok f ->
  exists f', file_to (other w) f = Ok f' /\ converted (other w) f f'.
Proof.
  intros A N LO H. pose proof (open_file_in fc w l f A H) as I. apply file_to_exact; [exact I| |].
  - unfold open_file in H. destruct (evaluate_all fc g_init l) as [[st l']|] eqn:E; [|discriminate]. cbn [bind] in H. apply ok_inj in H. subst f. cbn [f_heap].
    destruct (evaluate_image fc l [] g_init st l' (inv_init fc) E) as (_ & ms & IM & SH). apply heap_of_single. intros s pol u X.
    apply (N ms (deref_seg (g_store st) s) pol u IM). apply (in_map (deref (g_store st))) in X. fold (shown st) in X. rewrite SH in X. cbn in X.
    apply in_map_iff in X as (m & E1 & M). injection E1 as ->. exact M.
  - unfold open_file in H. destruct (evaluate_all fc g_init l) as [[st l']|] eqn:E; [|discriminate]. cbn [bind] in H. apply ok_inj in H. subst f. cbn [f_stmts].
    destruct (evaluate_all_agrees fc w l _ _ _ E (proj1 A)) as [_ L]. specialize (L LO). apply Forall_forall. intros [s u] J. apply in_map_iff in J as (s' & X & J).
    injection X as <- _. cbn [fst]. rewrite Forall_forall in L. auto.
Qed.

(** ** Translation *)
Definition tr_obj (d : Qc * Qc) (o : obj) : obj := mkObj (o_shape o) (omap (plus d) (o_pos o)) (o_pol o) (o_units o).
Definition tr_seg (d : Qc * Qc) (s : seg) : seg :=
  match s with
  | SgLine a b ap pol u => SgLine (plus d a) (plus d b) ap pol u
  | SgArc a b c dir ap q pol u => SgArc (plus d a) (plus d b) (omap (plus d) c) dir ap q pol u
  end.
Definition tr_prim (d : Qc * Qc) (p : prim) : prim :=
  match p with PStroke s => PStroke (tr_seg d s) | PRegion l pol u => PRegion (map (tr_seg d) l) pol u | PFlash l => PFlash l end.
Definition tr_st (d : Qc * Qc) (st : gst) : gst :=
  mkG (g_set st) (map (tr_prim d) (g_prims st)) (g_aps st) (g_macros st) (omap (map (tr_seg d)) (g_cur st)) (g_x st + fst d) (g_y st + snd d)
      (g_op st) (g_ap st) (g_interp st) (g_dir st) (g_ipol st) (g_lpol st) (g_region st) (g_quad st) (map (tr_obj d) (g_store st)).
Lemma tr_set_function d fn st : set_function fn (tr_st d st) = tr_st d (set_function fn st).
Proof. unfold set_function. destruct (otmem fn _); [reflexivity|]. now destruct (otmem fn ["G02"; "G2"; "G03"; "G3"]%string). Qed.
Lemma tr_set_op d op st : set_op op (tr_st d st) = tr_st d (set_op op st).
Proof. now destruct op. Qed.
Lemma tr_add_segment d s st : add_segment (tr_seg d s) (tr_st d st) = tr_st d (add_segment s st).
Proof. unfold add_segment, with_cur, tr_st. cbn. destruct (g_cur st); cbn; [now rewrite map_app|reflexivity]. Qed.
Lemma tr_append d p st : append (tr_prim d p) (tr_st d st) = tr_st d (append p st).
Proof. unfold append, tr_st. cbn. now rewrite map_app. Qed.
Lemma tr_find_center d fc st a b : equivariant fc ->
  find_center fc (tr_st d st) (plus d a) (plus d b) (0, 0) = omap (plus d) (find_center fc st a b (0, 0)).
Proof.
  intros E. unfold find_center. cbn [tr_st g_quad g_dir]. destruct (g_quad st); [apply E|]. cbn [omap]. f_equal. unfold plus. cbn. f_equal; ring.
Qed.
Lemma tr_operate d fc st x y : equivariant fc -> valid st ->
  operate fc (tr_st d st) (x + fst d) (y + snd d) None None = rmap (tr_st d) (operate fc st x y None None).
Proof.
  intros EQ V. unfold operate. change (g_op (tr_st d st)) with (g_op st). destruct (tmem (g_op st) ["D01"; "D1"]%string).
  - unfold draw. change (g_interp (tr_st d st)) with (g_interp st). change (g_region (tr_st d st)) with (g_region st).
    change (zget (g_ap (tr_st d st)) (g_aps (tr_st d st))) with (zget (g_ap st) (g_aps st)).
    change (region_aperture (tr_st d st)) with (region_aperture st).
    change (g_lpol (tr_st d st)) with (g_lpol st). change (g_set (tr_st d st)) with (g_set st).
    change (g_dir (tr_st d st)) with (g_dir st). change (g_quad (tr_st d st)) with (g_quad st).
    change (g_x (tr_st d st), g_y (tr_st d st)) with (plus d (g_x st, g_y st)). change (x + fst d, y + snd d) with (plus d (x, y)).
    cbn [dflt_q]. rewrite (tr_find_center d fc st _ _ EQ).
    destruct (g_interp st), (g_region st).
    + cbn [rmap]. f_equal. apply (tr_add_segment d (SgLine (g_x st, g_y st) (x, y) (region_aperture st) (g_lpol st) (p_units (g_set st)))).
    + destruct (zget (g_ap st) (g_aps st)) as [l|]; [|reflexivity]. cbn [rmap]. f_equal.
      apply (tr_append d (PStroke (SgLine (g_x st, g_y st) (x, y) (Some l) (g_lpol st) (p_units (g_set st))))).
    + cbn [rmap]. f_equal.
      change (tr_st d (with_interp Linear ?z)) with (with_interp Linear (tr_st d z)). f_equal.
      apply (tr_add_segment d (SgArc (g_x st, g_y st) (x, y) (find_center fc st (g_x st, g_y st) (x, y) (0, 0)) (g_dir st) (region_aperture st) (g_quad st) (g_lpol st) (p_units (g_set st)))).
    + destruct (zget (g_ap st) (g_aps st)) as [l|]; [|reflexivity]. cbn [rmap]. f_equal.
      apply (tr_append d (PStroke (SgArc (g_x st, g_y st) (x, y) (find_center fc st (g_x st, g_y st) (x, y) (0, 0)) (g_dir st) (Some l) (g_quad st) (g_lpol st) (p_units (g_set st))))).
  - destruct (tmem (g_op st) ["D02"; "D2"]%string).
    + cbn [rmap]. f_equal. unfold move. change (g_region (tr_st d st)) with (g_region st). destruct (g_region st); [|reflexivity].
      change (g_cur (tr_st d st)) with (omap (map (tr_seg d)) (g_cur st)). change (g_lpol (tr_st d st)) with (g_lpol st). change (g_set (tr_st d st)) with (g_set st).
      destruct (g_cur st) as [[|s1 [|s2 l]]|]; try reflexivity. cbn [omap map].
      unfold with_cur, append, tr_st. cbn. now rewrite map_app.
    + destruct (tmem (g_op st) ["D03"; "D3"]%string); [|reflexivity].
      destruct (zget (g_ap st) (g_aps st)) as [l|] eqn:E.
      2:{ unfold flash. change (zget (g_ap (tr_st d st)) (g_aps (tr_st d st))) with (zget (g_ap st) (g_aps st)). now rewrite E. }
      destruct (fetch (g_store st) l) as [o|] eqn:F.
      2:{ unfold flash. change (zget (g_ap (tr_st d st)) (g_aps (tr_st d st))) with (zget (g_ap st) (g_aps st)). rewrite E.
          change (fetch (g_store (tr_st d st)) l) with (nth_error (map (tr_obj d) (g_store st)) l). rewrite nth_error_map. unfold fetch in *. now rewrite F. }
      rewrite (flash_eq st x y l o E F).
      rewrite (flash_eq (tr_st d st) (x + fst d) (y + snd d) l (tr_obj d o)).
      * cbn [rmap]. f_equal. unfold append, with_store, tr_st. cbn. rewrite !map_app, map_length. reflexivity.
      * exact E.
      * change (fetch (g_store (tr_st d st)) l) with (nth_error (map (tr_obj d) (g_store st)) l). rewrite nth_error_map. unfold fetch in F. now rewrite F.
Qed.
Lemma tr_evaluate d fc st s : equivariant fc -> valid st -> no_offsets s ->
  evaluate fc (tr_st d st) (offset_stmt d s) = rmap (fun r => (tr_st d (fst r), offset_stmt d (snd r))) (evaluate fc st s).
Proof.
  intros EQ V NO. destruct s; try reflexivity.
  - destruct param; reflexivity.
  - cbn [offset_stmt evaluate evaluate_param]. unfold define_aperture. change (g_macros (tr_st d st)) with (g_macros st).
    destruct (build_aperture (g_macros st) shape mods) as [sh|]; [|reflexivity]. cbn [bind alloc rmap fst snd offset_stmt]. f_equal. f_equal.
    unfold with_aps, tr_st. cbn. rewrite map_app, map_length. reflexivity.
  - cbn [offset_stmt evaluate evaluate_param]. destruct (read_macro macro); reflexivity.
  - cbn [no_offsets] in NO. destruct i; [contradiction|]. destruct j; [destruct NO|]. cbn [offset_stmt evaluate omap].
    rewrite !evaluate_coord_eq. cbv zeta. rewrite tr_set_function.
    assert (OF : only_function func (omap (fun q => q + fst d) x) (omap (fun q => q + snd d) y) None None op = only_function func x y None None op)
      by (now destruct func, x, y, op).
    rewrite OF. destruct (only_function func x y None None op); [reflexivity|]. rewrite tr_set_op.
    assert (X : match omap (fun q => q + fst d) x with Some v => v | None => g_x (tr_st d st) end = (match x with Some v => v | None => g_x st end) + fst d) by now destruct x.
    assert (Y : match omap (fun q => q + snd d) y with Some v => v | None => g_y (tr_st d st) end = (match y with Some v => v | None => g_y st end) + snd d) by now destruct y.
    rewrite X, Y. clear X Y OF. destruct (set_function_extends func st V) as [V1 _]. destruct (set_op_extends op _ V1) as [V2 _].
    rewrite (tr_operate d fc _ _ _ EQ V2). destruct (operate fc (set_op op (set_function func st)) _ _ None None) as [st3|]; reflexivity.
  - cbn [offset_stmt evaluate rmap fst snd]. f_equal. f_equal. unfold evaluate_region_mode. change (g_region (tr_st d st)) with (g_region st).
    change (g_cur (tr_st d st)) with (omap (map (tr_seg d)) (g_cur st)). change (g_lpol (tr_st d st)) with (g_lpol st). change (g_set (tr_st d st)) with (g_set st).
    destruct (g_region st), m; try reflexivity. destruct (g_cur st) as [[|s1 l]|]; try reflexivity. cbn [omap map].
    unfold with_region, with_cur, append, tr_st. cbn. now rewrite map_app.
Qed.
Lemma tr_evaluate_all d fc : equivariant fc -> forall l st, valid st -> Forall no_offsets l ->
  evaluate_all fc (tr_st d st) (map (offset_stmt d) l) = rmap (fun r => (tr_st d (fst r), map (offset_stmt d) (snd r))) (evaluate_all fc st l).
Proof.
  intros EQ. induction l as [|s l IH]; intros st V F; [reflexivity|]. cbn [map evaluate_all]. inversion F; subst. rewrite tr_evaluate by assumption.
  destruct (evaluate fc st s) as [[st1 s1]|] eqn:E; [|reflexivity]. cbn [rmap bind fst snd].
  destruct (evaluate_extends fc _ _ _ _ V E) as [V1 _]. rewrite (IH st1) by assumption.
  destruct (evaluate_all fc st1 l) as [[st2 l2]|]; reflexivity.
Qed.
(** Before the first move. *)
Definition unplaced (st : gst) : Prop := Forall (fun o => o_pos o = None) (g_store st) /\ g_prims st = [] /\ g_cur st = None.
Definition quiet (s : stmt) : Prop := match s with SCoord _ None None None None None => mode_only s = true | SCoord _ _ _ _ _ _ => False | _ => True end.
Lemma grow_unplaced s st st' : grow s st st' -> ~ is_coord s -> unplaced st -> unplaced st'.
Proof.
  intros G N (S & P & C). unfold unplaced. destruct G; try contradiction.
  - destruct H as (A' & B' & C' & D'). rewrite B', C', D'. auto.
  - rewrite H1, H2, H3. auto.
  - rewrite H1, H4, H5. split; [apply Forall_app; auto|auto].
  - congruence.
  - rewrite H0, H1, H2. auto.
Qed.
Lemma quiet_step d fc st s : unplaced st -> quiet s ->
  evaluate fc st (offset_stmt d s) = rmap (fun r => (fst r, offset_stmt d (snd r))) (evaluate fc st s) /\
  (forall st' s', evaluate fc st s = Ok (st', s') -> unplaced st').
Proof.
  intros (S & P & C) Q. split.
  - destruct s; try reflexivity; cbn [offset_stmt evaluate].
    + match goal with |- _ = rmap _ (bind ?e _) => now destruct e end.
    + match goal with |- _ = rmap _ (bind ?e _) => now destruct e end.
    + match goal with |- _ = rmap _ (bind ?e _) => now destruct e end.
    + cbn [quiet] in Q. destruct x, y, i, j, op; try contradiction; destruct func; try discriminate. reflexivity.
  - intros st' s' E. destruct s as [| | | | | | | | | | | | | |fn sx sy si sj sop| | | | | |].
    15:{ cbn [quiet] in Q. destruct sx, sy, si, sj, sop; try contradiction; destruct fn as [fn|]; try discriminate.
         cbn [evaluate] in E. rewrite evaluate_coord_eq in E. cbv zeta in E. cbn [only_function] in E. apply ok_inj in E. injection E as <- _.
         destruct (set_function_same (Some fn) st) as (_ & B1 & C1 & D1). unfold unplaced. rewrite B1, C1, D1. auto. }
    all: apply evaluate_grow in E; eapply grow_unplaced; [exact E|intros X; exact X|repeat split; assumption].
Qed.
Lemma quiet_all d fc : forall l st, unplaced st -> Forall quiet l ->
  evaluate_all fc st (map (offset_stmt d) l) = rmap (fun r => (fst r, map (offset_stmt d) (snd r))) (evaluate_all fc st l) /\
  (forall st' s', evaluate_all fc st l = Ok (st', s') -> unplaced st').
Proof.
  induction l as [|s l IH]; intros st U F.
  - split; [reflexivity|]. intros st' s' E. apply ok_inj in E. injection E as <- _. exact U.
  - inversion F; subst. destruct (quiet_step d fc st s U) as [A B]; [assumption|]. cbn [map evaluate_all]. rewrite A.
    destruct (evaluate fc st s) as [[st1 s1]|]; cbn [rmap bind fst snd]; [|split; [reflexivity|discriminate]].
    destruct (IH st1) as [A1 B1]; [eapply B; reflexivity|assumption|]. rewrite A1. split.
    + destruct (evaluate_all fc st1 l) as [[st2 l2]|]; reflexivity.
    + intros st' s' E. destruct (evaluate_all fc st1 l) as [[st2 l2]|] eqn:E1; [|discriminate]. cbn [bind] in E. apply ok_inj in E. injection E as <- _. eapply B1. reflexivity.
Qed.
Lemma tr_first d fc st fn x y : unplaced st ->
  exists st1 s1, evaluate fc st (SCoord fn (Some x) (Some y) None None (Some (T "D02"))) = Ok (st1, s1) /\
    evaluate fc st (offset_stmt d (SCoord fn (Some x) (Some y) None None (Some (T "D02")))) = Ok (tr_st d st1, offset_stmt d s1).
Proof.
  intros (S & P & C). cbn [offset_stmt omap evaluate]. rewrite !evaluate_coord_eq. cbv zeta. replace (only_function fn (Some x) (Some y) None None (Some (T "D02"))) with false by now destruct fn.
  replace (only_function fn (Some (x + fst d)) (Some (y + snd d)) None None (Some (T "D02"))) with false by now destruct fn.
  set (st2 := set_op (Some (T "D02")) (set_function fn st)).
  assert (U : same_content st st2) by (eapply same_trans; [apply set_function_same|apply set_op_same]).
  unfold operate. assert (O : g_op st2 = T "D02") by reflexivity. rewrite O. change (tmem (T "D02") ["D01"; "D1"]%string) with false. change (tmem (T "D02") ["D02"; "D2"]%string) with true.
  cbn [bind]. do 2 eexists. split; [reflexivity|]. f_equal. f_equal. destruct U as (_ & U1 & U2 & U3).
  assert (M : move st2 = st2 \/ move st2 = with_cur None st2).
  { unfold move. destruct (g_region st2); [|now left]. right. now rewrite U3, C. }
  assert (MS : g_store (move st2) = g_store st2 /\ g_prims (move st2) = [] /\ g_cur (move st2) = None).
  { destruct M as [M|M]; rewrite M; clear M; [|cbn [with_cur g_store g_prims g_cur]]; rewrite ?U2, ?U3, ?P, ?C; auto. }
  destruct MS as (M1 & M2 & M3). unfold with_xy, tr_st. cbn [g_set g_prims g_aps g_macros g_cur g_x g_y g_op g_ap g_interp g_dir g_ipol g_lpol g_region g_quad g_store].
  rewrite M2, M3. cbn [map omap]. f_equal. rewrite M1, U1. transitivity (map (fun o : obj => o) (g_store st)); [now rewrite map_id|].
  apply map_ext_in. intros o I. rewrite Forall_forall in S. specialize (S o I). destruct o as [sh pos pol u]. cbn in S. subst pos. reflexivity.
Qed.
Lemma tr_file d fc l : equivariant fc -> positioned l -> Forall no_offsets l ->
  evaluate_all fc g_init (map (offset_stmt d) l) = rmap (fun r => (tr_st d (fst r), map (offset_stmt d) (snd r))) (evaluate_all fc g_init l).
Proof.
  intros EQ (pre & fn & x & y & post & -> & Q) F. apply Forall_app in F as [_ F]. inversion F as [|? ? _ F']; subst.
  rewrite map_app, !evaluate_all_app. destruct (quiet_all d fc pre g_init) as [A B]; [repeat split; constructor|exact Q|].
  rewrite A. destruct (evaluate_all fc g_init pre) as [[st1 l1]|] eqn:E1; [|reflexivity]. cbn [rmap bind fst snd].
  specialize (B _ _ eq_refl). destruct (tr_first d fc st1 fn x y B) as (st2 & s2 & E2 & E3). cbn [map evaluate_all]. rewrite E2, E3. cbn [bind].
  destruct (evaluate_all_extends fc pre _ _ _ valid_init E1) as [V1 _]. destruct (evaluate_extends fc _ _ _ _ V1 E2) as [V2 _].
  rewrite (tr_evaluate_all d fc EQ post st2 V2 F'). destruct (evaluate_all fc st2 post) as [[st3 l3]|]; [|reflexivity]. cbn [rmap bind fst snd].
  f_equal. f_equal. now rewrite map_app.
Qed.

(** *** The translated image *)
Definition bare_ap (s : vseg) : Prop :=
  match s with VLine _ _ (Some o) _ _ => o_pos o = None | VArc _ _ _ _ (Some o) _ _ _ => o_pos o = None | _ => True end.
Definition bare_mark (m : mark) : Prop := match m with Stroke s => bare_ap s | Fill l _ _ => Forall bare_ap l | Stamp _ => True end.
Lemma aperture_bare d past o : aperture_of d past = Some o -> o_pos o = None.
Proof.
  induction past as [|s p IH]; [discriminate|]. cbn [aperture_of]. destruct s; try exact IH. destruct (Z.eq_dec d0 d); [|exact IH].
  destruct (definition p shape (hd [] mods)); [|discriminate]. intros E. injection E as <-. reflexivity.
Qed.
Lemma path_bare fc past s a : (forall o, a = Some o -> o_pos o = None) -> bare_ap (GerberEvalSpec.path fc past s a).
Proof. intros H. unfold GerberEvalSpec.path. destruct (or_else (sets_motion s) (current_motion past)); cbn; destruct a; auto. Qed.
Lemma contour_bare fc past : Forall bare_ap (contour fc past).
Proof.
  induction past as [|s p IH]; [constructor|]. cbn [contour].
  assert (A : Forall bare_ap (contour fc p ++ [GerberEvalSpec.path fc p s (aperture_of (current_selection p) p)])).
  { apply Forall_app. split; [exact IH|]. constructor; [|constructor]. apply path_bare. intros o. apply aperture_bare. }
  destruct s; try (destruct (in_region p); [destruct (action p _)|]; auto; fail).
  destruct m; cbn [action]; destruct (in_region p); auto.
Qed.
Lemma marks_bare fc past s ms : marks fc past s = Some ms -> Forall bare_mark ms.
Proof.
  pose proof (contour_bare fc past) as C. set (a := aperture_of (current_selection past) past).
  assert (AB : forall o, a = Some o -> o_pos o = None) by (intros o; apply aperture_bare).
  assert (G : (match action past s, in_region past with
      | Other, _ => Some []
      | Move, Off => Some []
      | Move, On => match contour fc past with _ :: _ :: _ => Some [Fill (contour fc past) (current_polarity past) (current_units past)] | _ => Some [] end
      | Draw, On => Some []
      | Draw, Off => match a with Some _ => Some [Stroke (GerberEvalSpec.path fc past s a)] | None => None end
      | Flash, _ => match a with Some o => Some [Stamp (mkObj (o_shape o) (Some (target past s)) (current_polarity past) (current_units past))] | None => None end
      end) = Some ms -> Forall bare_mark ms).
  { destruct (action past s), (in_region past); intros E; try (injection E as <-; constructor).
    - destruct a as [o|] eqn:EA; [|discriminate]. injection E as <-. constructor; [|constructor]. cbn [bare_mark]. apply path_bare. intros o' X. injection X as <-. now apply AB.
    - destruct (contour fc past) as [|x [|y l]] eqn:EC; injection E as <-; constructor; [|constructor]. exact C.
    - destruct a as [o|]; [|discriminate]. injection E as <-. constructor; [exact I|constructor].
    - destruct a as [o|]; [|discriminate]. injection E as <-. constructor; [exact I|constructor]. }
  unfold marks. destruct s; try exact G. destruct m; [exact G|]. destruct (in_region past); [|intros E; injection E as <-; constructor].
  destruct (contour fc past) as [|x l] eqn:EC; intros E; injection E as <-; constructor; [|constructor]. exact C.
Qed.
Lemma image_bare fc : forall l past ms, image fc past l = Some ms -> Forall bare_mark ms.
Proof.
  induction l as [|s l IH]; intros past ms E; cbn [image] in E; [injection E as <-; constructor|].
  destruct (marks fc past s) as [a|] eqn:M; [|discriminate]. destruct (image fc (s :: past) l) as [b|] eqn:B; [|discriminate]. injection E as <-.
  apply Forall_app. split; [now apply marks_bare in M|now apply IH in B].
Qed.
Lemma tr_deref_ap d h ap o : deref_ap h ap = Some o -> o_pos o = None -> deref_ap (map (tr_obj d) h) ap = deref_ap h ap.
Proof.
  intros E N. destruct ap as [l|]; [|reflexivity]. cbn [deref_ap] in *. unfold fetch in *. rewrite nth_error_map, E. cbn. destruct o as [sh p pol u]. cbn in N. now subst p.
Qed.
Lemma tr_deref_ap_none d h ap : deref_ap h ap = None -> deref_ap (map (tr_obj d) h) ap = None.
Proof. intros E. destruct ap as [l|]; [|reflexivity]. cbn [deref_ap] in *. unfold fetch in *. rewrite nth_error_map, E. reflexivity. Qed.
Lemma tr_deref_seg d h s : bare_ap (deref_seg h s) -> deref_seg (map (tr_obj d) h) (tr_seg d s) = translate_seg d (deref_seg h s).
Proof.
  intros B. destruct s as [a b ap pol u|a b c dir ap q pol u]; cbn [tr_seg deref_seg translate_seg bare_ap] in *; f_equal;
    destruct (deref_ap h ap) as [o|] eqn:E; try (rewrite (tr_deref_ap d h ap o E B); exact E); now apply tr_deref_ap_none.
Qed.
Lemma tr_deref d h p m : deref h p = Some m -> bare_mark m -> deref (map (tr_obj d) h) (tr_prim d p) = Some (translate d m).
Proof.
  intros E B. destruct p as [s|l pol u|l]; cbn [deref tr_prim] in *.
  - injection E as <-. cbn [bare_mark translate] in *. now rewrite tr_deref_seg.
  - injection E as <-. cbn [bare_mark translate] in *. rewrite !map_map. do 2 f_equal. apply map_ext_in. intros s I. apply tr_deref_seg.
    rewrite Forall_forall in B. apply B. now apply in_map.
  - unfold fetch in *. rewrite nth_error_map. destruct (nth_error h l) as [o|]; [|discriminate]. injection E as <-. reflexivity.
Qed.
Lemma tr_shown d st ms : shown st = map Some ms -> Forall bare_mark ms -> shown (tr_st d st) = map Some (map (translate d) ms).
Proof.
  unfold shown. cbn [tr_st g_store g_prims]. revert ms. induction (g_prims st) as [|p ps IH]; intros [|m ms] E B; try discriminate; [reflexivity|].
  cbn [map] in *. injection E as E1 E2. inversion B; subst. rewrite (tr_deref d _ _ _ E1) by assumption. now rewrite (IH ms).
Qed.

(** *** The translated object graph *)
Definition flashes (ps : list prim) : list loc := flat_map (fun p => match p with PFlash l => [l] | _ => [] end) ps.
Definition placed (st : gst) : Prop :=
  NoDup (flashes (g_prims st)) /\ (forall l o, fetch (g_store st) l = Some o -> o_pos o <> None -> In l (flashes (g_prims st))) /\
  (forall l, In l (flashes (g_prims st)) -> exists o p, fetch (g_store st) l = Some o /\ o_pos o = Some p).
Lemma flashes_app a b : flashes (a ++ b) = flashes a ++ flashes b.
Proof. apply flat_map_app. Qed.
Lemma nodup_snoc {A} (l : list A) x : NoDup l -> ~ In x l -> NoDup (l ++ [x]).
Proof.
  induction 1 as [|y l NI N IH]; intros X; [constructor; [intros []|constructor]|]. cbn. constructor.
  - rewrite in_app_iff. intros [Y|[Y|[]]]; [contradiction|]. subst. apply X. now left.
  - apply IH. intros Y. apply X. now right.
Qed.
Lemma grow_placed s st st' : grow s st st' -> placed st -> placed st'.
Proof.
  assert (AP : forall h o l x, fetch (h ++ [o]) l = Some x -> fetch h l = Some x \/ (l = List.length h /\ x = o)).
  { intros h o l x E. destruct (Nat.lt_ge_cases l (List.length h)) as [L|L]; [left; now rewrite fetch_app in E|].
    right. unfold fetch in E. rewrite nth_error_app2 in E by exact L. destruct (l - List.length h)%nat as [|k] eqn:K; cbn in E; [|destruct k; discriminate].
    injection E as <-. split; [lia|reflexivity]. }
  intros G (N & A & B). unfold placed. destruct G.
  - destruct H as (A' & B' & C' & D'). now rewrite B', C'.
  - now rewrite H1, H2.
  - rewrite H1, H4. split; [exact N|]. split.
    + intros l x E NP. apply AP in E as [E|[-> ->]]; [eauto|contradiction].
    + intros l I. destruct (B l I) as (x & p & E & Q). exists x, p. split; [|exact Q]. rewrite fetch_app; [exact E|]. now apply fetch_lt in E.
  - rewrite H0, H2, flashes_app. cbn. now rewrite app_nil_r.
  - now rewrite H0, H1.
  - now rewrite H2, H3.
  - rewrite H2, H3, flashes_app. cbn. now rewrite app_nil_r.
  - rewrite H3, H4, flashes_app. change (flashes [PFlash (List.length (g_store st))]) with [List.length (g_store st)]. split; [|split].
    + apply nodup_snoc; [exact N|]. intros X; destruct (B _ X) as (y & q & E & _); apply fetch_lt in E; lia.
    + intros l x E NP. apply in_or_app. apply AP in E as [E|[-> ->]]; [left; eauto|right; now left].
    + intros l I. apply in_app_iff in I as [I|[<-|[]]].
      * destruct (B l I) as (x & q & E & Q). exists x, q. split; [|exact Q]. rewrite fetch_app; [exact E|]. now apply fetch_lt in E.
      * exists o, p. split; [apply fetch_new|exact H1].
Qed.
Lemma evaluate_all_placed fc : forall l st st' l', evaluate_all fc st l = Ok (st', l') -> placed st -> placed st'.
Proof.
  induction l as [|s l IH]; intros st st' l' H P; cbn [evaluate_all] in H; [apply ok_inj in H; injection H as <- _; exact P|].
  destruct (evaluate fc st s) as [[st1 s1]|] eqn:E; [|discriminate]. cbn [bind] in H.
  destruct (evaluate_all fc st1 l) as [[st2 l2]|] eqn:E2; [|discriminate]. cbn [bind] in H. apply ok_inj in H. injection H as <- _.
  eapply IH; [exact E2|]. eapply grow_placed; [eapply evaluate_grow; exact E|exact P].
Qed.
Lemma placed_init : placed g_init.
Proof. split; [constructor|]. split; [intros [|l] o E; discriminate|intros l []]. Qed.

Lemma moved_obj_of d o : moved d (obj_of o) = obj_of (tr_obj d o).
Proof. destruct o as [sh p pol u]. destruct sh, p as [[x y]|]; reflexivity. Qed.
Lemma moved_seg_obj d s l : moved d (seg_obj s l) = seg_obj (tr_seg d s) l.
Proof. destruct s as [a b ap pol u|a b c dir ap q pol u]; [reflexivity|]. destruct c; reflexivity. Qed.
Lemma moved_region d ls u : moved d (new_region ls u) = new_region ls u.
Proof. reflexivity. Qed.
Lemma apply_from_app f S : forall a b k, apply_from k f S (a ++ b) = apply_from k f S a ++ apply_from (k + List.length a) f S b.
Proof.
  induction a as [|x a IH]; intros b k; cbn; [now rewrite Nat.add_0_r|]. rewrite IH. do 3 f_equal. lia.
Qed.
Lemma tr_seg_ap d s : seg_ap (tr_seg d s) = seg_ap s.
Proof. now destruct s. Qed.
Lemma tr_place_seg d m s S : (forall x, (m <= x < m + List.length (fst (place_seg m s)))%nat -> (S x = true <-> x = snd (place_seg m s))) ->
  fst (place_seg m (tr_seg d s)) = apply_from m (moved d) S (fst (place_seg m s)) /\ snd (place_seg m (tr_seg d s)) = snd (place_seg m s).
Proof.
  intros H. unfold place_seg in *. rewrite tr_seg_ap. destruct (seg_ap s) as [l|]; cbn [fst snd List.length] in *; (split; [|reflexivity]); cbn [apply_from].
  - rewrite (proj2 (H m ltac:(lia)) eq_refl). now rewrite moved_seg_obj.
  - rewrite (proj2 (H (Datatypes.S m) ltac:(lia)) eq_refl). destruct (S m) eqn:E; [apply H in E; lia|]. now rewrite moved_seg_obj.
Qed.
Lemma place_seg_range m s : (m <= snd (place_seg m s) < m + List.length (fst (place_seg m s)))%nat.
Proof. unfold place_seg. destruct (seg_ap s); cbn; lia. Qed.
Lemma place_segs_range l : forall m, Forall (fun x => m <= x < m + List.length (fst (place_segs m l)))%nat (snd (place_segs m l)).
Proof.
  induction l as [|s l IH]; intros m; [constructor|]. cbn [place_segs]. pose proof (place_seg_range m s) as A. destruct (place_seg m s) as [os x].
  specialize (IH (m + List.length os)%nat). destruct (place_segs (m + List.length os) l) as [os' xs]. cbn [fst snd] in *. rewrite app_length.
  constructor; [lia|]. eapply Forall_impl; [|exact IH]. cbn. intros; lia.
Qed.
Lemma tr_place_segs d S l : forall m, (forall x, (m <= x < m + List.length (fst (place_segs m l)))%nat -> (S x = true <-> In x (snd (place_segs m l)))) ->
  fst (place_segs m (map (tr_seg d) l)) = apply_from m (moved d) S (fst (place_segs m l)) /\ snd (place_segs m (map (tr_seg d) l)) = snd (place_segs m l).
Proof.
  induction l as [|s l IH]; intros m H; [split; reflexivity|]. cbn [place_segs map] in *.
  pose proof (tr_place_seg d m s S) as A. pose proof (place_seg_range m s) as R. destruct (place_seg m s) as [os x].
  pose proof (place_segs_range l (m + List.length os)) as RS. specialize (IH (m + List.length os)%nat). destruct (place_segs (m + List.length os) l) as [os' xs]. cbn [fst snd] in *. rewrite app_length in H.
  rewrite Forall_forall in RS. destruct A as [A1 A2].
  { intros y Y. rewrite H by lia. cbn [In]. split; [intros [E|E]; [auto|apply RS in E; lia]|intros ->; now left]. }
  destruct (place_seg m (tr_seg d s)) as [os1 x1]. cbn [fst snd] in *. subst os1 x1. destruct IH as [I1 I2].
  { intros y Y. rewrite H by lia. cbn [In]. split; [intros [E|E]; [lia|exact E]|now right]. }
  assert (LE : List.length (apply_from m (moved d) S os) = List.length os) by apply apply_from_length. rewrite LE.
  destruct (place_segs (m + List.length os) (map (tr_seg d) l)) as [os2 xs2]. cbn [fst snd] in *. subst. split; [|reflexivity]. now rewrite apply_from_app.
Qed.
Lemma place_range n p m : prim_ok n p -> (n <= m)%nat -> (snd (place m p) < m + List.length (fst (place m p)))%nat /\
  match p with PFlash l => (l < n)%nat /\ snd (place m p) = l /\ fst (place m p) = [] | _ => (m <= snd (place m p))%nat end.
Proof.
  intros P L. destruct p as [s|l pol u|l]; cbn [place prim_ok] in *.
  - pose proof (place_seg_range m s). lia.
  - destruct (place_segs m l) as [os xs]. cbn [fst snd]. rewrite app_length. cbn. lia.
  - cbn. repeat split; auto; lia.
Qed.
Lemma moved_locs_range n ps : Forall (prim_ok n) ps -> forall m, (n <= m)%nat ->
  forall x, In x (moved_locs m ps) -> In x (flashes ps) \/ (m <= x < m + List.length (fst (place_all m ps)))%nat.
Proof.
  induction 1 as [|p ps P F IH]; intros m L x I; [destruct I|]. cbn [moved_locs place_all] in *.
  destruct (place_range n p m P L) as [R1 R2].
  assert (RS : match p with PRegion l _ _ => Forall (fun y => m <= y < m + List.length (fst (place m p)))%nat (snd (place_segs m l)) | _ => True end).
  { destruct p as [s|l pol u|l]; auto. pose proof (place_segs_range l m) as RS. cbn [place]. destruct (place_segs m l) as [os xs]. cbn [fst snd] in *. rewrite app_length. cbn.
    eapply Forall_impl; [|exact RS]. cbn. intros; lia. }
  destruct (place m p) as [os y] eqn:EP. specialize (IH (m + List.length os)%nat ltac:(lia) x). destruct (place_all (m + List.length os) ps) as [os' xs]. cbn [fst snd] in *.
  rewrite app_length. change (flashes (p :: ps)) with (flashes ([p] ++ ps)). rewrite flashes_app, in_app_iff. destruct I as [I|I].
  - subst y. destruct p as [s|l pol u|l]; [right; lia|right; lia|]. left. left. cbn. left. now rewrite (proj1 (proj2 R2)).
  - apply in_app_iff in I as [I|I].
    + destruct p as [s|l pol u|l]; try contradiction. rewrite Forall_forall in RS. apply RS in I. right. lia.
    + apply IH in I as [I|I]; [left; now right|right; lia].
Qed.
Lemma tr_place_all d S n ps : Forall (prim_ok n) ps -> forall m, (n <= m)%nat ->
  (forall x, (m <= x < m + List.length (fst (place_all m ps)))%nat -> (S x = true <-> In x (moved_locs m ps))) ->
  fst (place_all m (map (tr_prim d) ps)) = apply_from m (moved d) S (fst (place_all m ps)) /\ snd (place_all m (map (tr_prim d) ps)) = snd (place_all m ps).
Proof.
  induction 1 as [|p ps P F IH]; intros m L H; [split; reflexivity|]. cbn [place_all map moved_locs] in *.
  destruct (place_range n p m P L) as [R1 R2].
  assert (RS : match p with PRegion l _ _ => Forall (fun y => m <= y < m + List.length (fst (place m p)))%nat (snd (place_segs m l)) | _ => True end).
  { destruct p as [s|l pol u|l]; auto. pose proof (place_segs_range l m) as RS. cbn [place]. destruct (place_segs m l) as [os xs]. cbn [fst snd] in *. rewrite app_length. cbn.
    eapply Forall_impl; [|exact RS]. cbn. intros; lia. }
  assert (MR := moved_locs_range n ps F (m + List.length (fst (place m p)))%nat ltac:(lia)).
  assert (FL : forall x, In x (flashes ps) -> (x < n)%nat).
  { intros x I. unfold flashes in I. apply in_flat_map in I as (q & Q & I). destruct q as [s|l pol u|l]; try destruct I as [<-|[]]; try contradiction.
    rewrite Forall_forall in F. exact (F _ Q). }
  assert (OWN : fst (place m (tr_prim d p)) = apply_from m (moved d) S (fst (place m p)) /\ snd (place m (tr_prim d p)) = snd (place m p)).
  { destruct p as [s|l pol u|l]; cbn [tr_prim place] in *.
    - apply tr_place_seg. intros x X. rewrite H.
      + cbn [In app]. split; [intros [E|E]; [auto|]|intros ->; now left]. apply MR in E as [E|E]; [apply FL in E; lia|lia].
      + destruct (place_seg m s) as [os y]. destruct (place_all (m + List.length os) ps) as [os' xs]. cbn [fst] in *. rewrite app_length. lia.
    - pose proof (tr_place_segs d S l m) as A. destruct (place_segs m l) as [os xs]. cbn [fst snd] in *.
      destruct (place_all (m + List.length (os ++ [new_region xs (Some u)])) ps) as [os' xs'] eqn:EA. cbn [fst snd] in *. rewrite !app_length in *. cbn [List.length] in *.
      destruct A as [A1 A2].
      { intros x X. rewrite H by lia. cbn [In]. rewrite in_app_iff. split.
        - intros [E|[E|E]]; [lia|exact E|]. apply MR in E as [E|E]; [apply FL in E; lia|lia].
        - auto. }
      destruct (place_segs m (map (tr_seg d) l)) as [os1 xs1]. cbn [fst snd] in *. subst os1 xs1. rewrite apply_from_length. split; [|reflexivity].
      rewrite apply_from_app. f_equal. cbn [apply_from]. rewrite moved_region. now destruct (S (m + List.length os)%nat).
    - split; reflexivity. }
  destruct OWN as [O1 O2]. destruct (place m p) as [os y]. destruct (place m (tr_prim d p)) as [os1 y1]. cbn [fst snd] in *. subst os1 y1. rewrite apply_from_length.
  specialize (IH (m + List.length os)%nat ltac:(lia)). destruct (place_all (m + List.length os) ps) as [os' xs]. cbn [fst snd] in *. rewrite app_length in H.
  destruct IH as [I1 I2].
  - intros x X. rewrite H by lia. cbn [In]. rewrite in_app_iff. split; [|auto]. intros [E|[E|E]]; [|exfalso|exact E].
    + subst y. exfalso. lia.
    + destruct p as [s|l pol u|l]; try contradiction. rewrite Forall_forall in RS. apply RS in E. lia.
  - destruct (place_all (m + List.length os) (map (tr_prim d) ps)) as [os2 xs2]. cbn [fst snd] in *. subst. split; [|reflexivity]. now rewrite apply_from_app.
Qed.
Lemma seg_contents s l : contents (seg_obj s l) = [].
Proof. now destruct s. Qed.
Lemma obj_contents o : contents (obj_of o) = [].
Proof. unfold obj_of. now destruct (o_shape o). Qed.
Lemma region_contents ls u : contents (new_region ls u) = ls.
Proof. unfold contents, new_region. cbn [getattr po_attrs String.eqb Ascii.eqb Bool.eqb]. apply links_refs. Qed.
Lemma members_leaves h ls : Forall (fun l => exists o, hget h l = Some o /\ contents o = []) ls -> members h ls ls.
Proof.
  induction 1 as [|l ls (o & G & C) F IH]; [constructor|]. apply (Members_cons h l o ls [] ls G); [rewrite C; constructor|exact IH].
Qed.
Lemma members_app h a x : members h a x -> forall b y, members h b y -> members h (a ++ b) (x ++ y).
Proof.
  induction 1 as [|l o ls ms1 ms2 G M1 IH1 M2 IH2]; intros b y B; [exact B|]. cbn [app]. rewrite <- app_assoc. econstructor; eauto.
Qed.
Lemma hget_mid (pre mid post : heap) k : (k < List.length mid)%nat -> hget (pre ++ mid ++ post) (List.length pre + k)%nat = hget mid k.
Proof.
  intros L. unfold hget. rewrite nth_error_app2 by lia. replace (List.length pre + k - List.length pre)%nat with k by lia. now rewrite nth_error_app1.
Qed.
Lemma place_seg_get pre post m s : m = List.length pre -> hget (pre ++ fst (place_seg m s) ++ post) (snd (place_seg m s)) = Some (seg_obj s (match seg_ap s with Some l => l | None => m end)).
Proof.
  intros ->. unfold place_seg. destruct (seg_ap s) as [l|]; cbn [fst snd].
  - pose proof (hget_mid pre [seg_obj s l] post 0) as E. rewrite Nat.add_0_r in E. rewrite E by (cbn; lia). reflexivity.
  - pose proof (hget_mid pre [no_aperture; seg_obj s (List.length pre)] post 1) as E. replace (List.length pre + 1)%nat with (Datatypes.S (List.length pre)) in E by lia.
    rewrite E by (cbn; lia). reflexivity.
Qed.
(** Every object placed for a segment. *)
Lemma place_segs_get l : forall pre post m x, m = List.length pre -> In x (snd (place_segs m l)) ->
  exists s k, In s l /\ hget (pre ++ fst (place_segs m l) ++ post) x = Some (seg_obj s k).
Proof.
  induction l as [|s l IH]; intros pre post m x E I; [destruct I|]. cbn [place_segs] in *.
  pose proof (fun post' => place_seg_get pre post' m s E) as G.
  destruct (place_seg m s) as [os y]. specialize (IH (pre ++ os) post (m + List.length os)%nat x). destruct (place_segs (m + List.length os) l) as [os' xs]. cbn [fst snd] in *.
  rewrite <- app_assoc. destruct I as [<-|I].
  - exists s. eexists. split; [now left|apply G].
  - destruct IH as (s' & k & A & B); [rewrite app_length; lia|exact I|]. exists s', k. split; [now right|]. rewrite <- !app_assoc in B. exact B.
Qed.
Definition all_segs (ps : list prim) : list seg := flat_map (fun p => match p with PStroke s => [s] | PRegion l _ _ => l | PFlash _ => [] end) ps.
Lemma place_all_members n ps : Forall (prim_ok n) ps -> forall pre post m, m = List.length pre -> (n <= m)%nat ->
  let h := pre ++ fst (place_all m ps) ++ post in
  (forall l, In l (flashes ps) -> exists o, hget h l = Some o /\ contents o = []) ->
  members h (snd (place_all m ps)) (moved_locs m ps) /\
  (forall x o, In x (moved_locs m ps) -> hget h x = Some o ->
     In x (flashes ps) \/ (exists s k, In s (all_segs ps) /\ o = seg_obj s k) \/ (exists ls u, o = new_region ls u)).
Proof.
  induction 1 as [|p ps P F IH]; intros pre post m E L h FL; [split; [constructor|intros x o []]|]. subst h. cbn [place_all moved_locs] in *.
  assert (OWN : forall post', let h' := pre ++ fst (place m p) ++ post' in (forall l, In l (flashes [p]) -> exists o, hget h' l = Some o /\ contents o = []) ->
    exists o, hget h' (snd (place m p)) = Some o /\ members h' (contents o) (match p with PRegion l _ _ => snd (place_segs m l) | _ => [] end) /\
      (In (snd (place m p)) (flashes [p]) \/ (exists s k, In s (all_segs [p]) /\ o = seg_obj s k) \/ (exists ls u, o = new_region ls u)) /\
      (forall x, In x (match p with PRegion l _ _ => snd (place_segs m l) | _ => [] end) -> exists s k, In s (all_segs [p]) /\ hget h' x = Some (seg_obj s k))).
  { intros post' h' FL'. destruct p as [s|l pol u|l]; cbn [place] in *.
    - eexists. split; [apply place_seg_get; exact E|]. rewrite seg_contents. split; [constructor|]. split; [|intros x []]. right. left. do 2 eexists. split; [left; reflexivity|reflexivity].
    - subst h'. pose proof (fun pp x => place_segs_get l pre pp m x E) as G. destruct (place_segs m l) as [os xs]. cbn [fst snd] in *. exists (new_region xs (Some u)). rewrite region_contents.
      rewrite <- app_assoc. split; [rewrite E; rewrite app_assoc, <- app_length, <- (Nat.add_0_r (List.length (pre ++ os))); apply (hget_mid (pre ++ os) [new_region xs (Some u)] post'); cbn; lia|].
      assert (GS : forall x, In x xs -> exists s k, In s (all_segs [PRegion l pol u]) /\ hget (pre ++ os ++ [new_region xs (Some u)] ++ post') x = Some (seg_obj s k)).
      { intros x I. destruct (G ([new_region xs (Some u)] ++ post') x I) as (s & k & A & B). exists s, k. split; [unfold all_segs; cbn; now rewrite app_nil_r|exact B]. }
      split; [|split; [right; right; eauto|exact GS]].
      apply members_leaves. apply Forall_forall. intros x I. destruct (GS x I) as (s & k & _ & B). eexists. split; [exact B|apply seg_contents].
    - destruct (FL' l) as (o & A & B); [now left|]. exists o. split; [exact A|]. rewrite B. split; [constructor|]. split; [left; now left|intros x []]. }
  destruct (place m p) as [os y] eqn:EP. specialize (IH (pre ++ os) post (m + List.length os)%nat).
  destruct (place_all (m + List.length os) ps) as [os' xs]. cbn [fst snd] in *.
  assert (EH : pre ++ (os ++ os') ++ post = pre ++ os ++ os' ++ post) by now rewrite <- app_assoc. rewrite EH in *.
  assert (EH2 : (pre ++ os) ++ os' ++ post = pre ++ os ++ os' ++ post) by now rewrite <- app_assoc. rewrite EH2 in IH.
  assert (FA : forall l, In l (flashes (p :: ps)) <-> In l (flashes [p]) \/ In l (flashes ps)).
  { intros l. change (p :: ps) with ([p] ++ ps). now rewrite flashes_app, in_app_iff. }
  assert (SA : forall s, In s (all_segs (p :: ps)) <-> In s (all_segs [p]) \/ In s (all_segs ps)).
  { intros s. change (p :: ps) with ([p] ++ ps). unfold all_segs. now rewrite flat_map_app, in_app_iff. }
  destruct (OWN (os' ++ post)) as (o & G & M & K & GS). { intros l I. apply FL. apply FA. now left. }
  destruct IH as (I1 & I2); [rewrite app_length; lia|lia|intros l I; apply FL; apply FA; now right|].
  split.
  - apply (Members_cons _ y o xs _ _ G M I1).
  - intros x ox [X|X] GX; [|apply in_app_iff in X as [X|X]].
    + subst x. rewrite G in GX. injection GX as <-. destruct K as [K|[(s & k & A & B)|K]]; [left; apply FA; now left|right; left; exists s, k; split; [apply SA; now left|exact B]|right; now right].
    + destruct (GS x X) as (s & k & A & B). rewrite B in GX. injection GX as <-. right. left. exists s, k. split; [apply SA; now left|reflexivity].
    + destruct (I2 x ox X GX) as [A|[(s & k & A & B)|A]]; [left; apply FA; now right|right; left; exists s, k; split; [apply SA; now right|exact B]|right; now right].
Qed.
Lemma place_segs_nodup l : forall m, NoDup (snd (place_segs m l)).
Proof.
  induction l as [|s l IH]; intros m; [constructor|]. cbn [place_segs]. pose proof (place_seg_range m s) as A. destruct (place_seg m s) as [os x].
  specialize (IH (m + List.length os)%nat). pose proof (place_segs_range l (m + List.length os)) as R. destruct (place_segs (m + List.length os) l) as [os' xs]. cbn [fst snd] in *.
  constructor; [|exact IH]. intros I. rewrite Forall_forall in R. apply R in I. lia.
Qed.
Lemma nodup_app_intro {A} (a b : list A) : NoDup a -> NoDup b -> (forall x, In x a -> ~ In x b) -> NoDup (a ++ b).
Proof.
  induction 1 as [|x a NI N IH]; intros B D; [exact B|]. cbn. constructor.
  - rewrite in_app_iff. intros [X|X]; [contradiction|]. apply (D x); [now left|exact X].
  - apply IH; [exact B|]. intros y Y. apply D. now right.
Qed.
Lemma moved_locs_nodup n ps : Forall (prim_ok n) ps -> NoDup (flashes ps) -> forall m, (n <= m)%nat -> NoDup (moved_locs m ps).
Proof.
  induction 1 as [|p ps P F IH]; intros N m L; [constructor|]. cbn [moved_locs].
  change (p :: ps) with ([p] ++ ps) in N. rewrite flashes_app in N. apply nodup_app in N as (_ & N & DJ).
  destruct (place_range n p m P L) as [R1 R2].
  assert (FL : forall x, In x (flashes ps) -> (x < n)%nat).
  { intros x I. unfold flashes in I. apply in_flat_map in I as (q & Q & I). destruct q as [s|l pol u|l]; try destruct I as [<-|[]]; try contradiction.
    rewrite Forall_forall in F. exact (F _ Q). }
  assert (MR := moved_locs_range n ps F (m + List.length (fst (place m p)))%nat ltac:(lia)).
  specialize (IH N (m + List.length (fst (place m p)))%nat ltac:(lia)).
  assert (OWN : match p with PRegion l _ _ => Forall (fun x => m <= x < snd (place m p))%nat (snd (place_segs m l)) | _ => True end).
  { destruct p as [s|l pol u|l]; auto. pose proof (place_segs_range l m) as R. cbn [place]. destruct (place_segs m l) as [os xs]. cbn [fst snd] in *. exact R. }
  constructor.
  - rewrite in_app_iff. intros [X|X].
    + destruct p as [s|l pol u|l]; try contradiction. rewrite Forall_forall in OWN. apply OWN in X. lia.
    + apply MR in X. destruct p as [s|l pol u|l]; [destruct X as [X|X]; [apply FL in X; lia|lia]|destruct X as [X|X]; [apply FL in X; lia|lia]|].
      destruct R2 as (R2 & R3 & R4). rewrite R3 in X. destruct X as [X|X]; [exact (DJ l (or_introl eq_refl) X)|lia].
  - apply nodup_app_intro; [destruct p; try constructor; apply place_segs_nodup|exact IH|].
    intros x X Y. destruct p as [s|l pol u|l]; try contradiction. rewrite Forall_forall in OWN. apply OWN in X. apply MR in Y as [Y|Y]; [apply FL in Y; lia|lia].
Qed.
Definition has_centre (s : seg) : Prop := match s with SgArc _ _ None _ _ _ _ _ => False | _ => True end.
Ltac movable_class := split; [cbn; repeat (constructor; [cbn; intuition discriminate|]); constructor|]; split;
  [let A := fresh in intros ? ? A G; cbn in A; repeat (destruct A as [<- | A]; [cbn in G; first [discriminate|injection G as <-; do 3 eexists; reflexivity]|]); destruct A
  |intros ? G; cbn in G; first [discriminate|injection G as <-; eexists; first [exists []; reflexivity|eexists; reflexivity]]].
Lemma movable_seg s k : has_centre s -> movable (seg_obj s k).
Proof.
  intros H. destruct s as [a b ap pol u|a b c dir ap q pol u]; [movable_class|]. destruct c as [c|]; [|destruct H]. movable_class.
Qed.
Lemma movable_region ls u : movable (new_region ls u).
Proof. movable_class. Qed.
Lemma movable_obj o p : o_pos o = Some p -> movable (obj_of o).
Proof. intros E. unfold obj_of. rewrite E. destruct (o_shape o); movable_class. Qed.
Lemma heap_of_offset d st : valid st -> placed st -> Forall has_centre (all_segs (g_prims st)) ->
  forall fuel, (List.length (heap_of st) <= fuel)%nat -> offset_all fuel d (heap_of st) (roots_of st) = Ok (heap_of (tr_st d st)) /\ roots_of (tr_st d st) = roots_of st.
Proof.
  intros V (N & PL1 & PL2) HC fuel FU. pose proof (v_prims st V) as P. set (n := List.length (g_store st)) in *.
  set (ML := moved_locs n (g_prims st)).
  assert (EH : heap_of st = map obj_of (g_store st) ++ fst (place_all n (g_prims st)) ++ []) by (unfold heap_of; now rewrite app_nil_r).
  assert (GF : forall l, In l (flashes (g_prims st)) -> exists o p, fetch (g_store st) l = Some o /\ o_pos o = Some p /\ hget (heap_of st) l = Some (obj_of o)).
  { intros l I. destruct (PL2 l I) as (o & p & A & B). exists o, p. split; [exact A|]. split; [exact B|]. rewrite EH. unfold hget. pose proof (fetch_lt _ _ _ A) as LT.
    rewrite nth_error_app1 by (now rewrite map_length). rewrite nth_error_map. unfold fetch in A. now rewrite A. }
  destruct (place_all_members n (g_prims st) P (map obj_of (g_store st)) [] n) as [M MK]; [now rewrite map_length|lia| |].
  { intros l I. destruct (GF l I) as (o & p & A & B & C). exists (obj_of o). rewrite <- EH. split; [exact C|apply obj_contents]. }
  rewrite <- EH in *. fold (roots_of st) in M.
  assert (ND : NoDup ML) by (apply (moved_locs_nodup n); auto).
  assert (RG : forall x, In x ML -> (x < List.length (heap_of st))%nat).
  { intros x I. destruct (heap_of_proper st V) as [_ R]. destruct (moved_locs_range n _ P n ltac:(lia) x I) as [X|X].
    - destruct (GF x X) as (o & p & A & _). apply fetch_lt in A. unfold heap_of. rewrite app_length, map_length. lia.
    - unfold heap_of. rewrite app_length, map_length. exact (proj2 X). }
  pose proof (offset_exact d (heap_of st) (roots_of st) ML fuel M ND) as OE. destruct OE as (h' & E & LEN & MX).
  - intros m o I G. destruct (MK m o I G) as [X|[(s & k & A & ->)|(ls & u & ->)]].
    + destruct (GF m X) as (o' & p & A & B & C). rewrite C in G. injection G as <-. eapply movable_obj. exact B.
    + apply movable_seg. rewrite Forall_forall in HC. now apply HC.
    + apply movable_region.
  - eapply Nat.le_trans; [|exact FU]. assert (I : incl ML (seq 0 (List.length (heap_of st)))).
    { intros x X. apply in_seq. split; [lia|]. cbn. now apply RG. }
    pose proof (NoDup_incl_length ND I) as X. rewrite seq_length in X. exact X.
  - assert (FLL : forall x, In x (flashes (g_prims st)) -> In x ML).
    { unfold ML. clear. generalize n. induction (g_prims st) as [|p ps IH]; intros m x I; [destruct I|]. cbn [moved_locs]. change (p :: ps) with ([p] ++ ps) in I.
      rewrite flashes_app, in_app_iff in I. destruct I as [I|I]; [|right; apply in_or_app; right; now apply IH]. destruct p as [s|l pol u|l]; try contradiction. destruct I as [<-|[]]. now left. }
    destruct (tr_place_all d (mem ML) n (g_prims st) P n ltac:(lia)) as [T1 T2]; [intros x _; apply mem_in|].
    assert (TR : heap_of (tr_st d st) = apply (moved d) (mem ML) (heap_of st)).
    { unfold apply. rewrite EH, app_nil_r. rewrite apply_from_app. unfold heap_of. cbn [tr_st g_store g_prims]. rewrite map_length. fold n. rewrite T1, map_length. fold n. f_equal.
      apply nth_error_ext. intros m. change (hget (map obj_of (map (tr_obj d) (g_store st))) m = hget (apply (moved d) (mem ML) (map obj_of (g_store st))) m).
      rewrite apply_get. unfold hget. rewrite !nth_error_map. destruct (nth_error (g_store st) m) as [o|] eqn:G; [|cbn; now destruct (mem ML m)]. cbn [option_map].
      destruct (mem ML m) eqn:MM; [now rewrite moved_obj_of|]. f_equal. destruct o as [sh p pol u]. destruct p as [p|]; [|reflexivity].
      exfalso. assert (X : In m ML) by (apply FLL; eapply PL1; [exact G|discriminate]). apply mem_in in X. congruence. }
    split; [|unfold roots_of; cbn [tr_st g_store g_prims]; rewrite map_length; fold n; exact T2].
    rewrite E. f_equal. rewrite TR. apply nth_error_ext. intros m. change (hget h' m = hget (apply (moved d) (mem ML) (heap_of st)) m). rewrite apply_get.
    destruct (MX m) as [X Y]. destruct (mem ML m) eqn:MM; [apply X; now apply mem_in|]. apply Y. intros Z. apply mem_in in Z. congruence.
Qed.
(** Evaluating statements again, after the evaluator has filled in their operations. *)
Lemma evaluate_again fc st s st' s' : evaluate fc st s = Ok (st', s') -> evaluate fc st s' = Ok (st', s').
Proof.
  intros H. destruct s; try (apply ok_inj in H as H'; injection H' as <- <-; exact H).
  all: cbn [evaluate] in H; try (match type of H with bind ?r _ = _ => destruct r as [st1|] eqn:E; [|discriminate]; cbn [bind] in H; apply ok_inj in H; injection H as <- <-; cbn [evaluate]; rewrite E; reflexivity end).
  - cbn [evaluate] in *. rewrite evaluate_coord_eq in H. cbv zeta in H.
    destruct (only_function func x y i j op) eqn:OF; [apply ok_inj in H; injection H as <- <-; cbn [evaluate]; rewrite evaluate_coord_eq; cbv zeta; now rewrite OF|].
    destruct (operate fc _ _ _ _ _) as [st3|] eqn:O in H; [|discriminate]. cbn [bind] in H. apply ok_inj in H. injection H as <- <-. cbn [evaluate]. rewrite evaluate_coord_eq. cbv zeta.
    replace (only_function func x y i j (Some (g_op (set_op op (set_function func st))))) with false by (destruct func, x, y, i, j; reflexivity).
    assert (E : set_op (Some (g_op (set_op op (set_function func st)))) (set_function func st) = set_op op (set_function func st)).
    { destruct op; [reflexivity|]. unfold set_op. cbn [g_op]. now destruct (set_function func st). }
    rewrite E, O. reflexivity.
Qed.
Lemma evaluate_all_again fc : forall l st st' l', evaluate_all fc st l = Ok (st', l') -> evaluate_all fc st l' = Ok (st', l').
Proof.
  induction l as [|s l IH]; intros st st' l' H; cbn [evaluate_all] in H; [apply ok_inj in H; injection H as <- <-; reflexivity|].
  destruct (evaluate fc st s) as [[st1 s1]|] eqn:E; [|discriminate]. cbn [bind] in H.
  destruct (evaluate_all fc st1 l) as [[st2 l2]|] eqn:E2; [|discriminate]. cbn [bind] in H. apply ok_inj in H. injection H as <- <-.
  cbn [evaluate_all]. rewrite (evaluate_again _ _ _ _ _ E). cbn [bind]. rewrite (IH _ _ _ E2). reflexivity.
Qed.
Lemma centred_deref h ps ms : map (deref h) ps = map Some ms -> Forall centred ms -> Forall has_centre (all_segs ps).
Proof.
  revert ms. induction ps as [|p ps IH]; intros [|m ms] E C; try discriminate; [constructor|]. cbn [map] in E. injection E as E1 E2. inversion C; subst.
  change (Forall has_centre ((match p with PStroke s => [s] | PRegion l _ _ => l | PFlash _ => [] end) ++ all_segs ps)). apply Forall_app. split; [|eapply IH; eauto].
  assert (S : forall s, centred_seg (deref_seg h s) -> has_centre s) by (intros s; destruct s as [|? ? c]; cbn; auto; destruct c; auto).
  destruct p as [s|l pol u|l]; cbn [deref] in E1.
  - injection E1 as <-. constructor; [now apply S|constructor].
  - injection E1 as <-. cbn [centred] in *. apply Forall_forall. intros s I. apply S. match goal with K : Forall centred_seg _ |- _ => rewrite Forall_forall in K; apply K end. now apply in_map.
  - constructor.
Qed.
Lemma offset_file d fc l f ms : equivariant fc -> positioned l -> Forall no_offsets l ->
  open_file fc l = Ok f -> image fc [] l = Some ms -> Forall centred ms ->
  exists f', file_offset d f = Ok f' /\ open_file fc (map fst (f_stmts f')) = Ok f' /\ image fc [] (map fst (f_stmts f')) = Some (map (translate d) ms).
Proof.
  intros EQ P NO H IM C. unfold open_file in H. destruct (evaluate_all fc g_init l) as [[st l']|] eqn:E; [|discriminate]. cbn [bind] in H. apply ok_inj in H. subst f.
  destruct (evaluate_all_extends fc l _ _ _ valid_init E) as [V _].
  destruct (evaluate_image fc l [] g_init st l' (inv_init fc) E) as (_ & ms' & IM' & SH). rewrite IM in IM'. injection IM' as <-.
  assert (HC : Forall has_centre (all_segs (g_prims st))) by (eapply centred_deref; [exact SH|exact C]).
  assert (PL : placed st) by (eapply evaluate_all_placed; [exact E|exact placed_init]).
  destruct (heap_of_offset d st V PL HC (Datatypes.S (List.length (heap_of st)))) as [O R]; [lia|].
  unfold file_offset. cbn [f_heap f_prims f_units f_stmts]. rewrite O. cbn [bind]. eexists. split; [reflexivity|]. cbn [f_stmts].
  assert (MM : map fst (map (fun s => (offset_stmt d (fst s), snd s)) (map (fun s : stmt => (s, p_units (g_set st))) l')) = map (offset_stmt d) l').
  { rewrite !map_map. cbn [fst]. reflexivity. }
  rewrite MM. pose proof (tr_file d fc l EQ P NO) as TR. rewrite E in TR. cbn [rmap fst snd] in TR.
  pose proof (evaluate_all_again fc _ _ _ _ TR) as AG. split.
  - unfold open_file. rewrite AG. cbn [bind]. f_equal. rewrite R. cbn [tr_st g_set]. f_equal. rewrite !map_map. reflexivity.
  - destruct (evaluate_image fc _ [] g_init _ _ (inv_init fc) AG) as (_ & ms2 & IM2 & SH2). rewrite IM2. f_equal.
    rewrite (tr_shown d st ms SH (image_bare fc _ _ _ IM)) in SH2. clear -SH2. revert ms2 SH2. generalize (map (translate d) ms). intros a b. revert b.
    induction a as [|x a IH]; intros [|y b] E; try discriminate; [reflexivity|]. cbn in E. injection E as <- E. f_equal. now apply IH.
Qed.
Lemma open_file_converts fc w l f : all_in_unit w l -> open_file fc l = Ok f -> is_ok (file_to (other w) f) = true.
Proof. intros A O. destruct (file_to_ok w f (open_file_in fc w l f A O)) as (f' & E & _). now rewrite E. Qed.
