(** Sample macro shapes and files, and how witnesses are computed. *)
From Verif Require Import PyBase QcLib NumModel NumSpec GerberText GerberTextSpec MacroModel GerberEval GerberEvalSpec WriterModel WriterSpec WriterFile WriterExamples AmModel AmSpec AmExamples AmRenderSpec AmRenderProofs AmShareSpec.
Open Scope Qc_scope.
Open Scope list_scope.

(** The texts of the primitives that a mark shows. *)
Definition mark_texts (m : mark) : list text :=
  match m with
  | Stamp o => match o_shape o with ShMacro l => match primitives_of l with Ok ps => map prim_to_gerber ps | Err _ => [] end | _ => [] end
  | _ => []
  end.
Definition marks_written (fc : centre_fun) (digits : part -> text) (o : options) (st : pset) (items : list gitem) : option (list (option (list text))) :=
  match render_list digits o items (new_renderer st) with
  | Ok c => match dump st (fst c) with
            | Ok t => match parse_text no_file t with
                      | Ok (l, _) => match evaluate_all fc g_init l with Ok (g, _) => Some (map (option_map mark_texts) (shown g)) | Err _ => None end
                      | Err _ => None end
            | Err _ => None end
  | Err _ => None
  end.
Lemma shows_texts fc digits o st items : file_shows fc digits o st items ->
  exists ms, marks_written fc digits o st items = Some (map Some (map mark_texts ms)) /\ Forall2 (item_reads (p_units st)) items ms.
Proof.
  intros (c & t & R & D & H). destruct (H no_file) as (l & st' & g & l' & ms & P & _ & E & S & F). exists ms. split; [|exact F].
  unfold marks_written. rewrite R, D, P, E, S, map_map, map_map. reflexivity.
Qed.
Lemma item_texts u cm g m : item_reads u (Macro cm g) m -> mark_texts m = map prim_to_gerber (gr_prims g).
Proof. destruct m; cbn; try contradiction. intros (l & P & ->). cbn. now rewrite P. Qed.
Lemma not_shown fc digits o st items r : marks_written fc digits o st items = r ->
  r <> Some (map (fun x => Some (match x with Macro _ g => map prim_to_gerber (gr_prims g) | Plain _ => [] end)) items) ->
  Forall (fun x => match x with Macro _ _ => True | Plain _ => False end) items -> ~ file_shows fc digits o st items.
Proof.
  intros W N M S. destruct (shows_texts _ _ _ _ _ S) as (ms & E & F). apply N. rewrite <- W, E. f_equal. rewrite map_map. clear - F M.
  induction F as [|x m items ms X F IH]; [reflexivity|]. inversion M; subst. cbn [map]. rewrite IH by assumption. do 2 f_equal. destruct x as [y|cm g]; [contradiction|]. now apply item_texts in X.
Qed.

(** ** Samples *)
Definition metric34 : pset := mkPset Leading (3%nat, 4%nat) true Metric.
Definition two_digits : part -> text := fun _ => T "12".
Definition origin : point := (0, 0).
Definition at_pos (x y : Z) : point := (grid x 4, grid y 4).
(** A circle of diameter 1.5 whose exposure is on or off, flashed at [p]. *)
Definition disc (on : bool) (p : point) : group :=
  mkGroup [GCircle p (dbl 15 1) no_holes (if on then Dark else Clear)] p None (T "A") [ACircle on (dbl 15 1) (dbl 0 0, dbl 0 0)].
(** A hexagon of diameter 2 with a rotation. *)
Definition hexagon (r : Z) (p : point) : group :=
  mkGroup [GPoly p 6 (dbl 1 0) (dbl r 0) no_holes Dark] p None (T "A") [APolygon true 6 (dbl 0 0, dbl 0 0) (dbl 2 0) (dbl r 0)].
(** A moire, for which to_primitive gives nothing to draw. *)
Definition moire (p : point) : group :=
  mkGroup [] p None (T "A") [AMoire (dbl 0 0, dbl 0 0) (dbl 5 0) (dbl 1 1) (dbl 2 1) 3 (dbl 5 2) (dbl 6 0) (dbl 0 0)].
Definition sample_items : list gitem :=
  [Macro (Some (T "one")) (disc true (at_pos 50000 10000)); Plain (mkItem None (TFlash (FCircle (Q2Qc 1) no_holes) (at_pos 0 0) None));
   Macro None (hexagon 30 (at_pos 0 20000)); Macro None (disc true (at_pos 70000 0))].

Lemma qc_differ (a b : Qc) : Qeq_bool (this a) (this b) = false -> a <> b.
Proof. intros H ->. pose proof (Qeq_bool_iff (this b) (this b)) as [_ X]. rewrite X in H; [discriminate|reflexivity]. Qed.
Lemma on_grid_pos x y : (Z.abs x < 10 ^ 7)%Z -> (Z.abs y < 10 ^ 7)%Z -> point_on_grid metric34 (at_pos x y).
Proof. intros A B. split; [exists x|exists y]; auto. Qed.
Lemma sample_is_supported : Forall (item_supported no_centre default_options) sample_items.
Proof.
  assert (D : forall p, item_supported no_centre default_options (Macro (Some (T "one")) (disc true p)) /\ item_supported no_centre default_options (Macro None (disc true p))).
  { intro p. assert (X : gr_parts (disc true p) <> [] /\ gr_prims (disc true p) <> [] /\ Forall prim_writable (gr_prims (disc true p))); [|auto].
    split; [discriminate|]. split; [discriminate|]. apply Forall_cons; [|apply Forall_nil]. unfold prim_writable, plain_point. cbn [fst snd]. split; [plain_n|]. split; plain_n. }
  unfold sample_items. apply Forall_cons; [apply D|]. apply Forall_cons; [|apply Forall_cons; [|apply Forall_cons; [apply D|apply Forall_nil]]].
  - cbn. exists (ShCircle (Q2Qc 1) 0 0 0). split; [reflexivity|]. left. unfold absent. auto 10.
  - split; [discriminate|]. split; [discriminate|]. apply Forall_cons; [|apply Forall_nil]. unfold prim_writable, short_point. cbn [fst snd]. split; [lia|]. split; [split; short_n|]. split; [short_n|plain_n].
Qed.
Lemma sample_is_exact : Forall (gitem_exact metric34) sample_items.
Proof.
  assert (C : forall t, Some (T "one") = Some t -> Forall (fun x => ~ In x (T "*%" ++ [nl; cr])) t).
  { intros t [= <-]. repeat (apply Forall_cons; [intro I; cbn in I; repeat destruct I as [I|I]; try discriminate; contradiction|]). apply Forall_nil. }
  unfold sample_items. repeat (apply Forall_cons || apply Forall_nil); cbn [gitem_exact disc hexagon gr_position].
  - split; [exact C|]. apply on_grid_pos; lia.
  - split; [discriminate|]. cbn. split; [|apply on_grid_pos; lia]. split; [|apply no_holes_exact]. exists 1%Z, 0%nat, 0%nat. split; [reflexivity|apply qc_eq_iff; reflexivity].
  - split; [discriminate|]. apply on_grid_pos; lia.
  - split; [discriminate|]. apply on_grid_pos; lia.
Qed.
Lemma sample_told_apart : told_apart (groups sample_items).
Proof.
  assert (N : forall p r q, ~ same_compared (disc true p) (hexagon r q) /\ ~ same_compared (hexagon r q) (disc true p)).
  { intros. split; intro F; inversion F; subst; contradiction. }
  intros k g [<-|[<-|[<-|[]]]] [<-|[<-|[<-|[]]]] F; try reflexivity; exfalso; first [exact (proj1 (N _ _ _) F)|exact (proj2 (N _ _ _) F)].
Qed.
Lemma sample_digits : name_digits two_digits.
Proof.
  intro x. assert (K : forall c, existsb (Ascii.eqb c) (letter ++ T "0123456789+-") = true -> In c (letter ++ T "0123456789+-")).
  { intros c H. apply existsb_exists in H as (y & I & E). apply Ascii.eqb_eq in E. now subst. }
  cbn [two_digits T list_ascii_of_string]. repeat (apply Forall_cons; [apply K; reflexivity|]). apply Forall_nil.
Qed.
Lemma not_shown_samples :
  ~ file_shows no_centre two_digits default_options metric34 [Macro None (disc true origin); Macro None (disc false origin)] /\
  ~ file_shows no_centre two_digits default_options metric34 [Macro None (hexagon 0 origin); Macro None (hexagon 30 origin)] /\
  ~ file_shows no_centre two_digits default_options metric34 [Macro None (moire origin)].
Proof.
  split; [|split]; (eapply not_shown; [vm_compute; reflexivity|vm_compute; discriminate|repeat constructor]).
Qed.

(** Shapes that compare as the same. *)
Definition alone (x : part) : group := mkGroup [x] origin None (T "A") [].
Definition one : Qc := Q2Qc 1.
Definition wide : holes := (None, Some (Q2Qc 2), Some one).
Definition square : holes := (None, Some one, Some one).
Lemma compared_samples : Forall (fun x => group_equivalent (alone (snd x)) (alone (fst x)) (displacement (alone (fst x)) (alone (snd x))) = true /\ ~ same_looks (alone (fst x)) (alone (snd x)))
  [(GCircle origin one no_holes Dark, GCircle origin one no_holes Clear);
   (GPoly origin 6 one 0 no_holes Dark, GPoly origin 6 one (Q2Qc 30) no_holes Dark);
   (GRect origin one one 0 wide Dark, GRect origin one one 0 square Dark);
   (GLine origin (one, 0) (FCircle one no_holes) Dark, GLine origin (one, 0) (FCircle (Q2Qc 2) no_holes) Dark)].
Proof.
  repeat (apply Forall_cons || apply Forall_nil); (split; [vm_compute; reflexivity|]); intro F; inversion F as [|? ? ? ? L _]; subst; cbn in L; decompose [and] L; clear L; try discriminate.
Qed.

(** ** A macro with a parameter, used for two apertures *)
Definition disc_macro : list instr := match read_macro (T "1,1,$1,0,0*") with Ok i => i | Err _ => [] end.
Definition two_sizes : list event :=
  [EvMacro (T "DISC") disc_macro; EvAperture 10 (T "DISC") [zq 1]; EvAperture 11 (T "DISC") [zq 2]; EvSelect 10; EvFlash; EvSelect 11; EvFlash].
Definition flash_texts (l : list event) : option (list (option (list text * list text))) :=
  match sh_run sh_init l with
  | Ok s => Some (map (option_map (fun f => (map prim_to_gerber (fst f), map prim_to_gerber (snd f)))) (sh_flashes s))
  | Err _ => None
  end.
Lemma two_sizes_lemma : exists s own written, sh_run sh_init two_sizes = Ok s /\ In (Some (own, written)) (sh_flashes s) /\
  map prim_to_gerber own = [T "1,1,1.0,0.0,0.0*"] /\ map prim_to_gerber written = [T "1,1,2.0,0.0,0.0*"].
Proof.
  destruct (sh_run sh_init two_sizes) as [s|e] eqn:E; [|vm_compute in E; discriminate].
  assert (F : flash_texts two_sizes = Some [Some ([T "1,1,1.0,0.0,0.0*"], [T "1,1,2.0,0.0,0.0*"]); Some ([T "1,1,2.0,0.0,0.0*"], [T "1,1,2.0,0.0,0.0*"])]) by (vm_compute; reflexivity).
  unfold flash_texts in F. rewrite E in F. injection F as F. destruct (sh_flashes s) as [|[[own written]|] l] eqn:Q; [discriminate| |discriminate]. cbn [map option_map fst snd] in F. injection F as F1 F2 _.
  exists s, own, written. split; [reflexivity|]. split; [rewrite Q; now left|]. auto.
Qed.
