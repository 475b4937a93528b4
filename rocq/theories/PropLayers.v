(** Properties of file format detection, layer names, layer sorting and board sides. *)
From Coq Require Import Permutation Sorted.
From Verif Require Import LayersSpec LayersProofs.
Open Scope list_scope.

(** C48: the first line with a tell-tale decides. *)
Theorem C48_detect_file_format : forall ls, ls <> [] -> Forall is_line ls ->
  (forall pre l post f, ls = pre ++ l :: post -> Forall silent pre -> tells l f ->
     detect_file_format (text_of ls) = f /\
     loads_with (text_of ls) = match f with Excellon => Ok LoadExcellon | Rs274x => Ok LoadGerber | IpcD356 => Ok LoadIpc | Unknown => Err ParseError end) /\
  (detect_file_format (text_of ls) = Unknown <-> Forall silent ls) /\
  (loads_with (text_of ls) = Err ParseError <-> Forall silent ls).
Proof. exact C48_lemma. Qed.
Print Assumptions C48_detect_file_format.

Example C48_ex :
  detect_file_format (text_of [T "; drill"; T "M48 INCH"; T "%FSLAX24Y24*%"]) = Excellon /\
  detect_file_format (text_of [T "G04*"; T "%FSLAX24Y24*%"; T "M48"]) = Rs274x /\
  detect_file_format (text_of [T "C  comment"; T "P  JOB   board"]) = IpcD356 /\
  detect_file_format (text_of [T "P  JOBS board"; T "P"]) = Unknown.
Proof. repeat split; vm_compute; reflexivity. Qed.
Example C48_ex_tells : tells (T "P  JOB   board") IpcD356 /\ tells (T "M48%FS") Excellon.
Proof.
  split.
  - pose proof (line_format_tells (T "P  JOB   board")) as H. exact H.
  - constructor. exists [], (T "%FS"). reflexivity.
Qed.

(** C46: an ordered selection of the layers given. *)
Theorem C46_sort_layers : forall ls,
  Permutation (sort_layers ls true) (filter known ls) /\
  StronglySorted above (sort_layers ls true) /\
  (forall z, known z = true -> filter (tied z) (sort_layers ls true) = filter (tied z) ls) /\
  (exists stack behind, sort_layers ls true = stack ++ behind /\ sort_layers ls false = rev stack ++ behind /\
     Forall (fun x => stacked x = true) stack /\ Forall (fun x => stacked x = false) behind).
Proof. exact C46_lemma. Qed.
Print Assumptions C46_sort_layers.

Definition sample : list layer :=
  [mkLayer 0 "drill" 0 ["top"; "bottom"]; mkLayer 1 "internal" 3 []; mkLayer 2 "bottom" 0 []; mkLayer 3 "unknown" 0 [];
   mkLayer 4 "internal" 2 []; mkLayer 5 "top" 0 []; mkLayer 6 "topmask" 0 []; mkLayer 7 "internal" 2 []; mkLayer 8 "drawing" 0 []]%string.
Example C46_ex : map l_id (sort_layers sample true) = [6; 5; 4; 7; 1; 2; 0; 8]%nat /\
  map l_id (sort_layers sample false) = [2; 1; 7; 4; 5; 6; 0; 8]%nat.
Proof. split; vm_compute; reflexivity. Qed.

(** C47 as worded: each side is available, holds only its own layers and drills, and all of them.
    False: a board without copper, mask and silk on a side raises, and paste layers are left out. *)
Theorem C47_board_sides_refuted :
  (exists ls s, side_layers s (pcb ls) = Err IndexError) /\
  (exists ls s l x, side_layers s (pcb ls) = Ok l /\ In x ls /\ of_side s (l_class x) /\ ~ In x l).
Proof. exact C47_refuted_lemma. Qed.
Print Assumptions C47_board_sides_refuted.

(** What holds: with at least one copper, mask or silk layer on the side, exactly those layers and
    the drills reaching the side are returned, going outwards, the drills behind the innermost. *)
Theorem C47_board_sides_partial : forall ls s, (exists x, In x ls /\ copper_mask_silk s (l_class x)) ->
  exists l, side_layers s (pcb ls) = Ok l /\
    (forall p, (forall x, p x = true <-> copper_mask_silk s (l_class x) \/ drills_to s x) -> Permutation l (filter p ls)) /\
    (exists x r d, l = x :: d ++ r /\ Forall (drills_to s) d /\ StronglySorted (outwards s) (x :: r) /\
                Forall (fun y => copper_mask_silk s (l_class y)) (x :: r)).
Proof. exact C47_lemma. Qed.
Print Assumptions C47_board_sides_partial.

Example C47_ex : rmap (map l_id) (side_layers TopSide (pcb sample)) = Ok [5; 0; 6]%nat /\
  rmap (map l_id) (side_layers BottomSide (pcb sample)) = Ok [2; 0]%nat.
Proof. split; vm_compute; reflexivity. Qed.

(** C67 as worded: a listed extension decides. False: names are tried before later extensions. *)
Theorem C67_layer_class_refuted : exists filename stem h, In h hints /\ In "gts"%string (h_ext h) /\
  filename = stem ++ T ".gts" /\ h_layer h = "topmask"%string /\ guess_layer_class filename = "top"%string.
Proof. exact C67_refuted_lemma. Qed.
Print Assumptions C67_layer_class_refuted.

(** What holds: it decides when the rest of the name has no token of a class listed earlier. *)
Theorem C67_layer_class_partial : forall pre h post d stem ext e,
  hints = pre ++ h :: post -> In e (h_ext h) -> directory d ->
  ~ In "/"%char stem -> ~ In "/"%char ext -> ~ In "."%char ext -> ~ In nl stem -> (exists c, In c stem /\ c <> "."%char) ->
  same_but_case ext (T e) ->
  (forall g n, In g pre -> In n (h_name g) -> ~ has_token (T n) stem) ->
  guess_layer_class (d ++ stem ++ T "." ++ ext) = h_layer h.
Proof. exact C67_lemma. Qed.
Print Assumptions C67_layer_class_partial.

(** The directory and the case of the letters never matter. *)
Theorem C67_layer_class_case : forall d f d' f', directory d -> directory d' -> ~ In "/"%char f -> ~ In "/"%char f' ->
  same_but_case f f' -> guess_layer_class (d ++ f) = guess_layer_class (d' ++ f').
Proof. exact C67_case_lemma. Qed.
Print Assumptions C67_layer_class_case.

Example C67_ex : guess_layer_class (T "/home/top/Board.GTS") = "topmask"%string /\
  guess_layer_class (T "board-F.SilkS.gbr") = "topsilk"%string /\ guess_layer_class (T "readme.txt") = "unknown"%string.
Proof. repeat split; vm_compute; reflexivity. Qed.
Example C67_ex_case : same_but_case (T "GtS-[1]") (T "gTs-[1]") /\ ~ same_but_case (T "[") (T "{").
Proof.
  split; [unfold same_but_case; repeat (constructor; [unfold same_letter; first [left; reflexivity|right; cbn; tauto]|]); constructor|].
  intros H. inversion H as [|? ? ? ? [E|[E|E]] _]; [discriminate| |]; cbn in E; repeat (destruct E as [E|E]; [discriminate|]); exact E.
Qed.
Example C67_ex_token : has_token (T "top") (T "board-top") /\ ~ has_token (T "top") (T "laptop").
Proof.
  split.
  - exists (T "board-"), (T "top"), []. split; [reflexivity|]. split; [repeat (constructor; [right; now left|]); constructor|]. split; [|now left].
    right. exists (T "board"), "-"%char. split; [reflexivity|]. split; [now right|]. repeat (constructor; [left; cbn; tauto|]); constructor.
  - rewrite <- name_matches_spec by (cbn; intuition discriminate). vm_compute. discriminate.
Qed.

(** C68 as worded: internal layers are numbered by the first number in the file name. False: digits
    in the directory come first. *)
Theorem C68_internal_number_refuted : exists d f n id, directory d /\ ~ In "/"%char f /\ first_number_is f n /\
  l_class (from_cam id CamGerber (d ++ f)) = "internal"%string /\ l_order (from_cam id CamGerber (d ++ f)) <> dval n.
Proof. exact C68_refuted_lemma. Qed.
Print Assumptions C68_internal_number_refuted.

(** What holds: it is when the directory has no digits. *)
Theorem C68_internal_number_partial : forall id k d f n, directory d -> ~ In "/"%char f -> Forall (fun c => is_digit c = false) d ->
  first_number_is f n -> l_class (from_cam id k (d ++ f)) = "internal"%string -> l_order (from_cam id k (d ++ f)) = dval n.
Proof. exact C68_lemma. Qed.
Print Assumptions C68_internal_number_partial.

Example C68_ex : l_class (from_cam 0 CamGerber (T "/home/me/board.g12.g3")) = "internal"%string /\
  l_order (from_cam 0 CamGerber (T "/home/me/board.g12.g3")) = 12%Z.
Proof. split; vm_compute; reflexivity. Qed.

(** C69: copper layers, their number, and the layer that bounds the board. *)
Theorem C69_copper_and_bounds : forall ls,
  (forall p, (forall x, p x = true <-> copper x) ->
     Permutation (copper_layers (pcb ls)) (filter p ls) /\ layer_count (pcb ls) = List.length (filter p ls)) /\
  StronglySorted (fun x y => above y x) (copper_layers (pcb ls)) /\
  (forall x, bounds_layer (pcb ls) = Some x -> In x ls /\
     (l_class x = "outline"%string \/ l_class x = "top"%string /\ forall y, In y ls -> l_class y <> "outline"%string)) /\
  (bounds_layer (pcb ls) = None <-> forall y, In y ls -> l_class y <> "outline"%string /\ l_class y <> "top"%string).
Proof. exact C69_lemma. Qed.
Print Assumptions C69_copper_and_bounds.

Example C69_ex : map l_id (copper_layers (pcb sample)) = [2; 1; 7; 4; 5]%nat /\ layer_count (pcb sample) = 5%nat /\
  option_map l_id (bounds_layer (pcb sample)) = Some 5%nat.
Proof. repeat split; vm_compute; reflexivity. Qed.

(** C70 as worded: the kind of file decides between drill, netlist and the guessed class. False for
    netlists whose name looks like an internal layer. *)
Theorem C70_layer_kind_refuted : exists f, l_class (from_cam 0 CamIpc f) = "internal"%string.
Proof. exact C70_refuted_lemma. Qed.
Print Assumptions C70_layer_kind_refuted.

Theorem C70_layer_kind_partial : forall id k f,
  (l_class (from_cam id k f) = "drill"%string <-> k = CamExcellon) /\
  (k = CamIpc -> guess_layer_class f <> "internal"%string -> l_class (from_cam id k f) = "ipc_netlist"%string) /\
  (k = CamGerber -> l_class (from_cam id k f) = guess_layer_class f).
Proof. exact C70_lemma. Qed.
Print Assumptions C70_layer_kind_partial.

Example C70_ex : l_class (from_cam 0 CamExcellon (T "board-top.gtl")) = "drill"%string /\
  l_class (from_cam 0 CamIpc (T "board-top.gtl")) = "ipc_netlist"%string.
Proof. split; vm_compute; reflexivity. Qed.
