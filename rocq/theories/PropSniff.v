(** Properties of reading drill files without settings: detection of the number format. *)
From Verif Require Import PyBase QcLib NumModel NumSpec NumProofs GerberText ExcellonModel ExcellonFile ExcellonSpec ExcellonProofs ExcellonRun
  ToolModel ToolSpec ToolProofs HeadSpec HeadRun SniffModel SniffSpec SniffProofs SniffRun PropExcellon PropTool.
From Coq Require Import QArith Qcanon.
Open Scope list_scope.
Open Scope Qc_scope.

(** math.pi *)
Definition math_pi : Qc := Q2Qc (884279719003555 # 281474976710656).

(** ** C97 *)
(** A drill file whose format is stated, by its unit line or by comments, is read without settings as its program; the last comment counts if the
    unit line states no format.  Unless there is exactly one comment about the format every hole must have a diameter,
    as the file is tried out in other formats then. *)
Theorem C97_stated_format : forall py3 pi ext fs pre u z fo tu i d xs es hl e prog body tail eol,
  let data := file_text eol (T "M48" :: pre ++ (unit_text u ++ zeros_text z ++ tu) :: hl ++ e :: body ++ tail) in
  (es = [] \/ py3 = false) ->
  opening fs pre -> format_text fo tu -> (fo = Some (i, d) \/ fo = None /\ exists fs', fs = fs' ++ [(i, d)]) -> readable i d -> header i d z xs es hl ->
  (e = T "%" \/ e = T "M95") -> Forall2 (says i d z) prog body -> (tail = [] \/ tail = [T "M30"]) -> line_end eol -> tool_known (known xs es [] 1) prog ->
  (List.length fs = 1%nat \/ Forall (fun h => wanted u xs es [] (fst h) <> None) (holes None false (0, 0) prog)) ->
  exists f, loads (holesize py3) pi data None ext = Ok f /\
    Forall2 (hole_as (xf_store f) (wanted u xs es ext)) (xf_hits f) (holes None false (0, 0) prog) /\
    xs_units (xf_set f) = u /\ xs_format (xf_set f) = (i, d) /\ xs_zeros (xf_set f) = z.
Proof. exact C97_lemma_loads. Qed.
Print Assumptions C97_stated_format.
(** With settings given the file is read with these, without any detection; nothing is needed about diameters then. *)
Theorem C97_given : forall py3 pi se ext fs pre u z fo tu i d xs es hl e prog body tail eol,
  let data := file_text eol (T "M48" :: pre ++ (unit_text u ++ zeros_text z ++ tu) :: hl ++ e :: body ++ tail) in
  (es = [] \/ py3 = false) ->
  opening fs pre -> format_text fo tu -> (i, d) = format_in fo fs se -> readable i d -> header i d z xs es hl ->
  (e = T "%" \/ e = T "M95") -> Forall2 (says i d z) prog body -> (tail = [] \/ tail = [T "M30"]) -> line_end eol -> tool_known (known xs es ext 1) prog ->
  exists f, loads (holesize py3) pi data (Some se) ext = Ok f /\
    Forall2 (hole_as (xf_store f) (wanted u xs es ext)) (xf_hits f) (holes None (start_inc se) (0, 0) prog) /\
    xs_units (xf_set f) = u /\ xs_format (xf_set f) = (i, d) /\ xs_zeros (xf_set f) = z.
Proof. exact C97_lemma_given. Qed.
Print Assumptions C97_given.
(** The answer of the detection is what the only comment about the format and the unit line say. *)
Theorem C97_detected : forall py3 pi a b pre u z fo tu i d xs es hl e prog body tail eol,
  let data := file_text eol (T "M48" :: pre ++ (unit_text u ++ zeros_text z ++ tu) :: hl ++ e :: body ++ tail) in
  (es = [] \/ py3 = false) ->
  opening [(a, b)] pre -> format_text fo tu -> (i, d) = match fo with Some f => f | None => (a, b) end -> readable i d -> header i d z xs es hl ->
  (e = T "%" \/ e = T "M95") -> Forall2 (says i d z) prog body -> (tail = [] \/ tail = [T "M30"]) -> line_end eol -> tool_known (known xs es [] 1) prog ->
  detect (holesize py3) pi data = Ok ([Z.of_nat a; Z.of_nat b], z).
Proof. exact C97_lemma_detect. Qed.
Print Assumptions C97_detected.

Example C97_ex_hypotheses : opening [(3, 3)%nat] ex_pre /\ header 3 3 ZTrail [mkDef 1 [("C"%char, grid 5 1)]] [ex_size_entry; ex_tool_size_entry] ex_head.
Proof. exact C94_ex_hypotheses. Qed.
Example C97_ex : views (loads (holesize false) math_pi (file_text [nl] ex_file_lines) None ex_ext) =
  [[1 # 1; 1 # 2; 1 # 1; 2 # 1]; [2 # 1; 3 # 10; 3 # 1; 2 # 1]; [3 # 1; 50000000000 # 196850393701; 3 # 1; 1 # 1]; [4 # 1; 7 # 10; 1 # 2; 1 # 1]]%Q.
Proof. vm_compute. reflexivity. Qed.
Example C97_ex_detected : detect (holesize false) math_pi (file_text [nl] ex_file_lines) = Ok ([3; 3]%Z, ZTrail).
Proof. vm_compute. reflexivity. Qed.
(** A format in the unit line: it is read in this format whatever is detected. *)
Definition ex_unit_lines : list text := [T "M48"; T "METRIC,LZ,000.000"; T "T1C0.5"; T "%"; T "T1"; T "X0Y0"; T "X100Y080"; T "M30"].
Example C97_ex_unit_line : detect (holesize true) math_pi (file_text [nl] ex_unit_lines) = Ok ([2; 4]%Z, ZLead) /\
  views (loads (holesize true) math_pi (file_text [nl] ex_unit_lines) None []) = [[1 # 1; 1 # 2; 0 # 1; 0 # 1]; [1 # 1; 1 # 2; 100 # 1; 80 # 1]]%Q.
Proof. split; vm_compute; reflexivity. Qed.

(** ** C98 *)
(** What is stated exactly once is taken as stated; among the remaining options one with the least score is taken, where
    the options with which the file cannot be read, or whose holes have no diameters, do not take part; if none is left there is a ValueError. *)
Theorem C98_detection : forall holesize pi data f0, parse_raw holesize x_default [] data = Ok f0 -> exists fs, stated_formats f0 fs /\
  (forall l z, fs = [l] -> stated_zeros f0 = [z] -> detect holesize pi data = Ok (l, z)) /\
  ((List.length fs <> 1%nat \/ List.length (stated_zeros f0) <> 1%nat) -> (forall l, fs = [l] -> exists fm, proper l fm) ->
   match detect holesize pi data with
   | Ok k => possible fs (stated_zeros f0) k /\ exists s, oddness holesize pi data k s /\ forall k' s', possible fs (stated_zeros f0) k' -> oddness holesize pi data k' s' -> s <= s'
   | Err e => e = ValueError /\ forall k s, possible fs (stated_zeros f0) k -> ~ oddness holesize pi data k s
   end).
Proof. exact C98_lemma. Qed.
Print Assumptions C98_detection.
(** A file which cannot be read with the default settings is refused for the same reason. *)
Theorem C98_unreadable : forall holesize pi data ext e, parse_raw holesize x_default [] data = Err e -> detect holesize pi data = Err e /\ loads holesize pi data None ext = Err e.
Proof. exact detect_unreadable. Qed.
Print Assumptions C98_unreadable.

(** Without zeros and format: 2:5 with trailing zeros is chosen among six. *)
Definition ex_bare (a b : string) : text := file_text [nl] [T "M48"; T "T1C0.1"; T "%"; T "T1"; T "X0Y0"; T a; T b; T "M30"].
Example C98_ex : detect (holesize true) math_pi (ex_bare "X300000Y0" "X300000Y300000") = Ok ([2; 5]%Z, ZTrail).
Proof. vm_compute. reflexivity. Qed.
(** Holes without diameters: no option is left. *)
Example C98_ex_none : detect (holesize true) math_pi (file_text [nl] [T "M48"; T "INCH,LZ"; T "T1"; T "%"; T "T1"; T "X0Y0"; T "M30"]) = Err ValueError.
Proof. vm_compute. reflexivity. Qed.

(** ** C99 *)
(** A metric file in the usual format 3:3 which does not state its format should be read in it.  It is not: the areas are measured against
    a board of 8 square inches even if the file is metric, here 100 mm by 80 mm become 10 mm by 8 mm. *)
Theorem C99_metric_refuted : forall py3, exists prog body,
  Forall2 (says 3 3 ZLead) prog body /\ holes None false (0, 0) prog = [(1%Z, (0, 0)); (1%Z, (zq 100, zq 80))] /\
  exists f, loads (holesize py3) math_pi (file_text [nl] (T "M48" :: T "METRIC,LZ" :: T "T1C0.5" :: T "%" :: body ++ [T "M30"])) None [] = Ok f /\
    xs_units (xf_set f) = Metric /\ map (hole_view (xf_store f)) (xf_hits f) = [Some (1%Z, Some (grid 5 1), (0, 0)); Some (1%Z, Some (grid 5 1), (zq 10, zq 8))].
Proof.
  intros py3. exists [Use 1; At (Some (grid (0 * 10 ^ 5) 3)) (Some (grid (0 * 10 ^ 5) 3)); At (Some (grid (100 * 10 ^ 3) 3)) (Some (grid (80 * 10 ^ 3) 3))], [T "T1"; T "X0Y0"; T "X100Y080"].
  split; [|split].
  - constructor; [apply (says_use 3 3 ZLead 1 (T "1")); [digits|discriminate|cbn; lia|reflexivity]|].
    constructor; [apply (says_at 3 3 ZLead _ _ (T "X0") (T "Y0")); [apply (field_some 3 3 ZLead "X" (T "0")); a_number|apply (field_some 3 3 ZLead "Y" (T "0")); a_number|left; discriminate]|].
    constructor; [apply (says_at 3 3 ZLead _ _ (T "X100") (T "Y080")); [apply (field_some 3 3 ZLead "X" (T "100")); a_number|apply (field_some 3 3 ZLead "Y" (T "080")); a_number|left; discriminate]|constructor].
  - cbn. unfold put. repeat (f_equal; try (apply Qc_is_canon; vm_compute; reflexivity)).
  - destruct (loads (holesize py3) math_pi _ None []) as [f|] eqn:E; [|destruct py3; vm_compute in E; discriminate E]. exists f. split; [reflexivity|].
    destruct py3; vm_compute in E; injection E as <-; (split; [reflexivity|]); cbn; repeat (f_equal; try (apply Qc_is_canon; vm_compute; reflexivity)).
Qed.
Print Assumptions C99_metric_refuted.
