(** Properties of converted Gerber files that are evaluated again. *)
From Coq Require Reals.
From Verif Require HeapProofs.
From Verif Require Import ScaleSpec ScaleProofs.
From Verif Require GeomModel CenterModel ScaleCenter.
Open Scope list_scope.
Open Scope Qc_scope.

(** ** C126 *)
Theorem C126_image_partial : forall fc w v l f f' ms, v <> w -> proportional fc -> declared w l -> Forall plain_apertures l ->
  open_file fc l = Ok f -> image fc [] l = Some ms -> file_to v f = Ok f' ->
  image fc [] (map fst (f_stmts f')) = Some (map (enlarge (factor v) v) ms) /\
  exists f2, open_file fc (map fst (f_stmts f')) = Ok f2 /\ f_units f2 = v /\ f_prims f2 = f_prims f' /\
    (no_single_segment fc l -> Forall lengths_only l -> forall x m, In x (f_prims f) -> part_of (f_heap f) x m -> hget (f_heap f2) m = hget (f_heap f') m).
Proof. intros fc w v l f f' ms D. rewrite (HeapProofs.unit_other v w D). apply C126_lemma. Qed.
Print Assumptions C126_image_partial.
(** The centre that the code chooses in single quadrant mode is proportional to the arc. *)
Theorem C126_centres : forall k q d a b o, Rdefinitions.Rlt Rdefinitions.R0 k -> ScaleCenter.moderate a b o ->
  ScaleCenter.moderate (ScaleCenter.times_pt k a) (ScaleCenter.times_pt k b) (ScaleCenter.times_pt k o) ->
  CenterModel.find_center q d (ScaleCenter.times_pt k a) (ScaleCenter.times_pt k b) (ScaleCenter.times_pt k o) =
  option_map (ScaleCenter.times_pt k) (CenterModel.find_center q d a b o).
Proof. intros k q d a b o K. exact (ScaleCenter.find_center_grows k K q d a b o). Qed.
Print Assumptions C126_centres.
Example C126_centres_ex : forall a b o, (forall x, In x [fst a; snd a; fst b; snd b; fst o; snd o] -> Rdefinitions.Rle (Rbasic_fun.Rabs x) (Rdefinitions.IZR 1000)) ->
  ScaleCenter.moderate a b o.
Proof. intros a b o H. apply ScaleCenter.moderate_small; apply H; cbn; auto 7. Qed.
(** ... and moves with it, as C32 asks for. *)
Theorem C32_centres : forall q dir d a b o,
  CenterModel.find_center q dir (ScaleCenter.plus_pt d a) (ScaleCenter.plus_pt d b) o = option_map (ScaleCenter.plus_pt d) (CenterModel.find_center q dir a b o).
Proof. exact ScaleCenter.find_center_moves. Qed.
Print Assumptions C32_centres.

(** A file with a line, an arc with its centre, a flash and a region. *)
Definition fc0 : centre_fun := fun _ a _ o => Some (fst a + fst o, snd a + snd o).
Lemma fc0_proportional : proportional fc0.
Proof. intros k d a b o _. unfold fc0, times. cbn. do 2 f_equal; ring. Qed.
Definition at_ (fn : option text) (x y i j : Z) (op : string) : stmt := SCoord fn (Some (zq x)) (Some (zq y)) (Some (zq i)) (Some (zq j)) (Some (T op)).
Definition to (x y : Z) (op : string) : stmt := SCoord None (Some (zq x)) (Some (zq y)) None None (Some (T op)).
Definition inch_body : list stmt :=
  [SAD 10 (T "C") [[zq 1; zq 2]]; SAD 11 (T "R") [[zq 2; zq 3]]; SAp 10 false; SQuad SingleQ; to 1 1 "D02"; to 5 1 "D01";
   at_ (Some (T "G03")) 6 2 1 0 "D01"; SAp 11 false; to 9 9 "D03"; SReg On; to 4 4 "D02"; SCoord (Some (T "G01")) (Some (zq 8)) None None None (Some (T "D01")); to 8 8 "D01"; SReg Off].
Definition inch_file : list stmt := SCom (T "x") :: SMO true Inch :: inch_body.
Example C126_ex : declared Inch inch_file /\ Forall plain_apertures inch_file /\
  exists f f' ms, open_file fc0 inch_file = Ok f /\ image fc0 [] inch_file = Some ms /\ file_to Metric f = Ok f' /\ List.length ms = 4%nat.
Proof.
  split; [split; [repeat constructor; discriminate|]|].
  { exists [SCom (T "x")], inch_body. split; [reflexivity|repeat constructor]. }
  split. { repeat (constructor; [cbn; auto|]). constructor. }
  destruct (open_file fc0 inch_file) as [f|] eqn:E; [|vm_compute in E; discriminate].
  assert (X : (do f <- open_file fc0 inch_file; do _ <- file_to Metric f; Ok true) = Ok true) by (vm_compute; reflexivity).
  assert (Y : option_map (@List.length mark) (image fc0 [] inch_file) = Some 4%nat) by (vm_compute; reflexivity).
  destruct (image fc0 [] inch_file) as [ms|]; [|discriminate Y]. rewrite E in X. cbn [bind] in X. destruct (file_to Metric f) as [f'|] eqn:F; [|discriminate X].
  exists f, f', ms. injection Y as Y. auto.
Qed.
(** The end points of the lines of an image with their units. *)
Definition ends (ms : option (list mark)) : list (list Q * unit_) :=
  match ms with Some l => map (fun m => match m with Stroke (VLine a b _ _ u) => (map this [fst a; snd a; fst b; snd b], u) | _ => ([], Inch) end) l | None => [] end.
Definition reread (l : list stmt) (u : unit_) : option (list mark) :=
  match (do f <- open_file fc0 l; do f' <- file_to u f; Ok (image fc0 [] (map fst (f_stmts f')))) with Ok i => i | Err _ => None end.
(** The full statement is false: (a) a file without a declaration is read in inches; after to_metric its
    statements are in millimetres, but are read in inches again. *)
Definition undeclared : list stmt := [SAD 10 (T "C") [[zq 1]]; SAp 10 false; to 0 0 "D02"; to 1 0 "D01"].
Theorem C126_undeclared_refuted : Forall (agrees Inch) undeclared /\ Forall plain_apertures undeclared /\
  ends (image fc0 [] undeclared) = [([0 # 1; 0 # 1; 1 # 1; 0 # 1]%Q, Inch)] /\
  ends (reread undeclared Metric) = [([0 # 1; 0 # 1; 127 # 5; 0 # 1]%Q, Inch)].
Proof.
  split; [repeat constructor; discriminate|]. split. { repeat (constructor; [cbn; auto|]). constructor. }
  split; vm_compute; reflexivity.
Qed.
Print Assumptions C126_undeclared_refuted.
(** (b) the vertices of polygons are counted in millimetres: a hexagon becomes a polygon of 152 sides. *)
Definition hexagon : list stmt := [SMO true Inch; SAD 10 (T "P") [[zq 1; zq 6]]; SAp 10 false; to 0 0 "D03"].
Definition sides (ms : option (list mark)) : list Z :=
  match ms with Some l => map (fun m => match m with Stamp o => match o_shape o with ShPolygon n _ _ _ _ _ => n | _ => 0%Z end | _ => 0%Z end) l | None => [] end.
Theorem C126_polygon_refuted : declared Inch hexagon /\ sides (image fc0 [] hexagon) = [6%Z] /\ sides (reread hexagon Metric) = [152%Z].
Proof.
  split; [|split; vm_compute; reflexivity]. split; [repeat constructor; discriminate|]. exists [], (tl hexagon). split; [reflexivity|constructor].
Qed.
Print Assumptions C126_polygon_refuted.
