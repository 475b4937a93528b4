(** Properties of tool tables, hole sizes in comments, drill reports and settings files. *)
From Verif Require Import PyBase QcLib NumModel NumSpec NumProofs GerberText SettingsModel ExcellonModel ExcellonFile ExcellonSpec ExcellonProofs ExcellonRun
  ToolModel ToolSpec ToolProofs HeadSpec HeadRun PropExcellon.
From Coq Require Import QArith Qcanon.
Open Scope list_scope.
Open Scope Qc_scope.

(** ** C93 *)
(** A tool file is read as the tools of its entries: for each number the last entry with it, its hole size in the units wanted,
    and how it is plated.  This is refuted. *)
Definition C93_claim : Prop := forall u es ts eol, tool_file es ts -> line_end eol ->
  exists tools, load_tools (Some u) (file_text eol ts) = Ok tools /\
  forall n, match latest n es with
            | None => dget n tools = None
            | Some e => exists t, dget n tools = Some t /\ t_num t = n /\ t_diam t = Some (diameter_in u e) /\ t_plated t = Some (e_plating e)
            end.
(** Proved: all but two things.  The sizes given in thousandths of an inch are only met up to two parts in 10^12, and how a tool is plated
    is only read from comments. *)
Theorem C93_tool_tables_partial : forall u es ts eol, tool_file es ts -> line_end eol ->
  exists tools, load_tools (Some u) (file_text eol ts) = Ok tools /\
  forall n, match latest n es with
            | None => dget n tools = None
            | Some e => exists t d, dget n tools = Some t /\ t_num t = n /\ unused t /\ t_feed t = None /\ t_rpm t = None /\ t_diam t = Some d /\ near d (diameter_in u e) /\ (e_unit e = Mm -> d = diameter_in u e) /\
                                    (e_from e = Comment -> t_plated t = Some (e_plating e))
            end.
Proof. exact C93_lemma. Qed.
Print Assumptions C93_tool_tables_partial.

Definition ex_row : text := T "10.5   P  T01  2  2.5".
Definition ex_row_entry : Z * entry := (1%Z, mkEntry Table (grid 105 1) Mils PYes).
Definition ex_size : text := T "Holesize 2. = 0.3 Tolerance = +0.05/-0.05 NON_PLATED MM Quantity = 12".
Definition ex_size_entry : Z * entry := (2%Z, mkEntry Comment (grid 3 1) Mm PNo).
Definition ex_tool_size : text := T "T3 Holesize 2. = 10 Tolerance = +2/-2 OPTIONAL MILS Quantity = 7".
Definition ex_tool_size_entry : Z * entry := (3%Z, mkEntry Comment (grid 10 0) Mils POptional).
Ltac dec a b := apply (decimal_point (T a) (T b)); [digits|digits|discriminate].
Ltac int a := apply (decimal_int (T a)); [digits|discriminate].
Ltac num := split; [digits|split; [discriminate|reflexivity]].
Ltac no_nl := unfold no_newline; cbn; intuition discriminate.
Ltac a_gap := split; [repeat constructor|discriminate].
Lemma ex_row_ok : table_row ex_row_entry ex_row.
Proof.
  apply (a_row (T "10.5") _ (T "   ") "P"%char PYes (T "  ") (T "01") 1 (T "  ") (T "2") (grid 2 0) (T "  ") (T "2.5") (grid 25 1)); try a_gap; try num; [dec "10"%string "5"%string|now left|reflexivity|int "2"%string|dec "2"%string "5"%string].
Qed.
Lemma ex_size_ok : hole_size ex_size_entry ex_size.
Proof.
  apply (a_size (T "2") 2 (T "0.3") _ (T "0.05") (grid 5 2) (T "0.05") (grid 5 2) PNo Mm (T "12") 12); try num; [cbn; lia|dec "0"%string "3"%string|dec "0"%string "05"%string|dec "0"%string "05"%string].
Qed.
Lemma ex_tool_size_ok : hole_size ex_tool_size_entry ex_tool_size.
Proof.
  apply (a_tool_size (T "3") 3 (T "2") 2 (T "10") _ (T "2") (grid 2 0) (T "2") (grid 2 0) POptional Mils (T "7") 7); try num; [cbn; lia|cbn; lia|int "10"%string|int "2"%string|int "2"%string].
Qed.
Definition ex_tool_file : list text := [T "; tools"; T " " ++ ex_row; ex_size; T ""; ex_tool_size ++ T "  "].
Example C93_ex_file : tool_file [ex_row_entry; ex_size_entry; ex_tool_size_entry] ex_tool_file.
Proof.
  apply file_other. { apply (indent unrelated [] (T "; tools") []); [constructor|constructor|]. split; [no_nl|]. split; [reflexivity|cbn; intuition discriminate]. }
  apply file_row. { apply (indent _ (T " ") ex_row []); [repeat constructor|constructor|left; exact ex_row_ok]. }
  apply file_row. { apply (indent _ [] ex_size []); [constructor|constructor|right; exact ex_size_ok]. }
  apply file_other. { apply (indent unrelated [] [] []); [constructor|constructor|]. split; [no_nl|exact Logic.I]. }
  apply file_row. { apply (indent _ [] ex_tool_size (T "  ")); [constructor|repeat constructor|right; exact ex_tool_size_ok]. }
  constructor.
Qed.
(** Numbers, sizes (as fractions) and plating of the tools read. *)
Definition tools_view (r : res (list (Z * tool))) : list (Z * option Q * option plating) :=
  match r with Ok l => map (fun x => (fst x, option_map this (t_diam (snd x)), t_plated (snd x))) l | Err _ => [] end.
Example C93_ex : tools_view (load_tools (Some Metric) (file_text [nl] ex_tool_file)) =
  [(1%Z, Some (52500000000 # 196850393701)%Q, None); (2%Z, Some (3 # 10)%Q, Some PNo); (3%Z, Some (50000000000 # 196850393701)%Q, Some POptional)].
Proof. vm_compute. reflexivity. Qed.

(** The letter P or N of a row is not looked at: the tool is neither plated nor not plated. *)
Theorem C93_plating_refuted : ~ C93_claim.
Proof.
  intros H. assert (F : tool_file [ex_row_entry] [ex_row]).
  { apply file_row; [|constructor]. rewrite <- (app_nil_r ex_row). apply (indent _ [] ex_row []); [constructor|constructor|left; exact ex_row_ok]. }
  destruct (H Inch _ _ [nl] F (or_introl eq_refl)) as (tools & L & V). specialize (V 1%Z). cbn [latest ex_row_entry] in V. destruct V as (t & G & _ & _ & P).
  assert (X : match load_tools (Some Inch) (file_text [nl] [ex_row]) with Ok l => option_map t_plated (dget 1%Z l) | Err _ => None end = Some None) by (vm_compute; reflexivity).
  rewrite L in X. rewrite G in X. cbn in X. rewrite P in X. discriminate X.
Qed.
Print Assumptions C93_plating_refuted.
(** Ten thousandths of an inch are not read as exactly a hundredth of an inch. *)
Theorem C93_size_refuted : exists e t, hole_size e t /\ match load_tools (Some Inch) (file_text [nl] [t]) with
  | Ok l => exists x d, dget (fst e) l = Some x /\ t_diam x = Some d /\ d <> diameter_in Inch (snd e) /\ near d (diameter_in Inch (snd e))
  | Err _ => False
  end.
Proof.
  exists ex_tool_size_entry, ex_tool_size. split; [exact ex_tool_size_ok|].
  assert (F : tool_file [ex_tool_size_entry] [ex_tool_size]).
  { apply file_row; [|constructor]. rewrite <- (app_nil_r ex_tool_size). apply (indent _ [] ex_tool_size []); [constructor|constructor|right; exact ex_tool_size_ok]. }
  destruct (C93_lemma Inch _ _ [nl] F (or_introl eq_refl)) as (tools & L & V). rewrite L. specialize (V 3%Z). cbn [latest ex_tool_size_entry] in V. destruct V as (x & d & G & _ & _ & _ & _ & D & N & _).
  exists x, d. repeat split; [exact G|exact D| |exact N]. intros E.
  assert (X : match load_tools (Some Inch) (file_text [nl] [ex_tool_size]) with Ok l => match dget 3%Z l with Some t => match t_diam t with Some d => Qeq_bool (this d) (1 # 100) | None => true end | None => true end | Err _ => true end = false) by (vm_compute; reflexivity).
  rewrite L, G, D in X. rewrite E in X. vm_compute in X. discriminate X.
Qed.
Print Assumptions C93_size_refuted.
(** Without settings, which are optional, the same file is not read at all. *)
Theorem C93_no_settings_refuted : exists es ts, tool_file es ts /\ load_tools None (file_text [nl] ts) = Err AttributeError.
Proof. eexists _, ex_tool_file. split; [exact C93_ex_file|]. vm_compute. reflexivity. Qed.
Print Assumptions C93_no_settings_refuted.

(** ** C94 *)
(** A drill file with comments, format comments, hole sizes in comments, and tools given beforehand, read by python 2: the holes are those of
    the program, with the diameter given by the definition of the tool, else by the last comment about it (up to the relative error), else by the tool given
    beforehand, else by its number. *)
Theorem C94_hole_sizes_partial : forall se ext fs pre u z fo tu i d xs es hl e prog body tail eol,
  opening fs pre -> format_text fo tu -> (i, d) = format_in fo fs se -> readable i d -> header i d z xs es hl ->
  (e = T "%" \/ e = T "M95") -> Forall2 (says i d z) prog body -> (tail = [] \/ tail = [T "M30"]) -> line_end eol -> tool_known (known xs es ext 1) prog ->
  exists f, parse_raw (holesize false) se ext (file_text eol (T "M48" :: pre ++ (unit_text u ++ zeros_text z ++ tu) :: hl ++ e :: body ++ tail)) = Ok f /\
    Forall2 (hole_as (xf_store f) (wanted u xs es ext)) (xf_hits f) (holes None (start_inc se) (0, 0) prog) /\
    xs_units (xf_set f) = u /\ xs_format (xf_set f) = (i, d) /\ xs_zeros (xf_set f) = z.
Proof. intros se ext fs pre u z fo tu i d xs es hl e prog body tail eol. exact (C94_lemma _ se ext fs pre u z fo tu i d xs es hl e prog body tail eol (or_intror eq_refl)). Qed.
Print Assumptions C94_hole_sizes_partial.
(** The same without hole sizes in comments holds for every version of python. *)
Theorem C94_comments : forall py3 se ext fs pre u z fo tu i d xs hl e prog body tail eol,
  opening fs pre -> format_text fo tu -> (i, d) = format_in fo fs se -> readable i d -> header i d z xs [] hl ->
  (e = T "%" \/ e = T "M95") -> Forall2 (says i d z) prog body -> (tail = [] \/ tail = [T "M30"]) -> line_end eol -> tool_known (known xs [] ext 1) prog ->
  exists f, parse_raw (holesize py3) se ext (file_text eol (T "M48" :: pre ++ (unit_text u ++ zeros_text z ++ tu) :: hl ++ e :: body ++ tail)) = Ok f /\
    Forall2 (hole_as (xf_store f) (wanted u xs [] ext)) (xf_hits f) (holes None (start_inc se) (0, 0) prog) /\
    xs_units (xf_set f) = u /\ xs_format (xf_set f) = (i, d) /\ xs_zeros (xf_set f) = z.
Proof. intros py3 se ext fs pre u z fo tu i d xs hl e prog body tail eol. exact (C94_lemma _ se ext fs pre u z fo tu i d xs [] hl e prog body tail eol (or_introl eq_refl)). Qed.
Print Assumptions C94_comments.

Definition ex_pre : list text := [T ";A board"; T ";FILE_FORMAT=3:3"].
Definition ex_head : list text := [T ";TYPE=PLATED"; T "; " ++ ex_size; T ";  " ++ ex_tool_size; T "T1C0.5"; T ";;more"].
Definition ex_file_lines : list text := T "M48" :: ex_pre ++ T "METRIC,TZ" :: ex_head ++ T "%" :: [T "T1"; T "X1000Y2000"; T "T2"; T "X3000"; T "T3"; T "Y1000"; T "T4"; T "X500"] ++ [T "M30"].
Definition ex_ext : list tool := [new_tool 4 (grid 7 1) None None None; new_tool 2 (grid 9 1) None None None].
Example C94_ex_hypotheses : opening [(3, 3)%nat] ex_pre /\ header 3 3 ZTrail [mkDef 1 [("C"%char, grid 5 1)]] [ex_size_entry; ex_tool_size_entry] ex_head.
Proof.
  assert (R : forall s, forallb (fun k => negb (text_in k (T s))) keywords = true -> no_newline (T s) -> remark (T ";" ++ T s)).
  { intros s H N. constructor; [exact N|]. intros k I O. rewrite forallb_forall in H. specialize (H k I). rewrite (occurs_text_in k (T s)) in H; [discriminate| |exact O]. intros ->. cbn in I. intuition discriminate. }
  split.
  - apply opening_remark; [apply (R "A board"%string); [reflexivity|no_nl]|]. apply (opening_format (T "3") (T "3") 3 3); [num|num|constructor].
  - apply header_plated; [now left|]. apply (header_size 3 3 ZTrail [] [] ex_size); [constructor|constructor|exact ex_size_ok|].
    apply (header_size 3 3 ZTrail (T " ") [] ex_tool_size); [repeat constructor|constructor|exact ex_tool_size_ok|].
    apply header_define. { apply (defines_tool 3 3 ZTrail 1 (T "1") _ (T "C0.5")); [digits|discriminate|reflexivity|].
      apply (params_one 3 3 ZTrail "C"%char (T "0.5") _ [] []); [cbn; tauto|apply (reads_point 3 3 ZTrail NoSign (T "0") (T "5")); [digits|digits|discriminate]|constructor]. }
    apply header_remark; [apply (R ";more"%string); [reflexivity|no_nl]|]. constructor.
Qed.
Example C94_ex : views (parse_raw (holesize false) x_default ex_ext (file_text [nl] ex_file_lines)) =
  [[1 # 1; 1 # 2; 1 # 1; 2 # 1]; [2 # 1; 3 # 10; 3 # 1; 2 # 1]; [3 # 1; 50000000000 # 196850393701; 3 # 1; 1 # 1]; [4 # 1; 7 # 10; 1 # 2; 1 # 1]]%Q.
Proof. vm_compute. reflexivity. Qed.

(** With python 3 a file with a hole size in a comment is refused. *)
Theorem C94_python3_refuted : exists fs pre xs es hl u z i d body, opening fs pre /\ header i d z xs es hl /\ last fs (0, 0)%nat = (i, d) /\
  parse_raw (holesize true) x_default [] (file_text [nl] (T "M48" :: pre ++ (unit_text u ++ zeros_text z) :: hl ++ T "%" :: body)) = Err TypeError.
Proof.
  exists [(3, 3)%nat], ex_pre, [mkDef 1 [("C"%char, grid 5 1)]], [ex_size_entry; ex_tool_size_entry], ex_head, Metric, ZTrail, 3%nat, 3%nat, [T "T1"; T "X1000Y2000"].
  destruct C94_ex_hypotheses as [A B]. split; [exact A|]. split; [exact B|]. split; [reflexivity|]. vm_compute. reflexivity.
Qed.
Print Assumptions C94_python3_refuted.
(** A hole size directly after the semicolon is not noticed: the hole gets 0.032 instead of 0.3/25.4. *)
Theorem C94_no_blank_refuted : exists e t, hole_size e t /\
  match parse_raw (holesize false) x_default [] (file_text [nl] [T "M48"; T "INCH,LZ"; T ";" ++ t; T "%"; T "T2"; T "X01"]) with
  | Ok f => exists h, xf_hits f = [h] /\ ~ hole_as (xf_store f) (fun _ => Some (diameter_in Inch (snd e))) h (fst e, (1, 0))
  | Err _ => False
  end.
Proof.
  exists ex_size_entry, ex_size. split; [exact ex_size_ok|].
  destruct (parse_raw _ _ _ _) as [f|] eqn:E; [|vm_compute in E; discriminate E].
  assert (X : views (Ok f) = [[2 # 1; 4 # 125; 1 # 1; 0 # 1]]%Q) by (rewrite <- E; vm_compute; reflexivity). unfold views in X.
  destruct (xf_hits f) as [|h [|h' l]]; try discriminate X. exists h. split; [reflexivity|]. intros (dm & V & N). cbn [map] in X. rewrite V in X. destruct dm as [dm|]; [|discriminate X].
  cbn [flat] in X. assert (X' : this dm = (4 # 125)%Q) by congruence. clear X. rename X' into X. cbn [near_opt] in N. unfold near in N. assert (dm = Q2Qc (4 # 125)) by (apply Qc_is_canon; rewrite X; reflexivity). subst dm. vm_compute in N. apply N. reflexivity.
Qed.
Print Assumptions C94_no_blank_refuted.

(** ** C95 *)
Theorem C95_reports : forall hs bar es ts eol, Forall heading hs -> columns rule bar -> report_rows es ts -> line_end eol ->
  exists tools, load_report (file_text eol (hs ++ bar :: ts)) = Ok tools /\
  forall n, match latest n es with
            | None => dget n tools = None
            | Some e => exists t, dget n tools = Some t /\ t_num t = n /\ unused t /\ t_diam t = Some (dr_size e) /\ t_plated t = dr_plating e /\
                                  t_feed t = Some (zq (dr_feed e)) /\ t_rpm t = Some (zq (dr_speed e))
            end.
Proof. exact C95_lemma. Qed.
Print Assumptions C95_reports.

Definition ex_report : list text := [T "Tool Size"; T "==== ==== ====  ==== ===== ==="; T "  1  0.8  x  300 2000 12"; T "==== ===="; T "2 1. - 200 1500 3 "].
Ltac a_word := split; [discriminate|repeat constructor].
Ltac seps ws :=
  match ws with
  | ?w :: nil => apply (sep_one (T w)); a_word
  | ?w :: ?l => apply (sep_more (T w) (T " ")); [a_word|a_gap|seps l|discriminate]
  end.
Example C95_ex_hypotheses : heading (T "Tool Size") /\ columns rule (T "==== ==== ====  ==== ===== ===") /\
  report_rows [(1%Z, mkDrill (grid 8 1) (Some PYes) 300 2000); (2%Z, mkDrill (grid 1 0) (Some PNo) 200 1500)] [T "  1  0.8  x  300 2000 12"; T "==== ===="; T "2 1. - 200 1500 3 "].
Proof.
  split; [|split].
  - exists [T "Tool"; T "Size"]. split; [|discriminate]. apply (indent _ [] (T "Tool Size") []); [constructor|constructor|]. seps ["Tool"; "Size"]%string.
  - apply (indent _ [] (T "==== ==== ====  ==== ===== ===") []); [constructor|constructor|].
    apply (sep_more (T "====") (T " ")); [a_word|a_gap| |discriminate]. apply (sep_more (T "====") (T " ")); [a_word|a_gap| |discriminate].
    apply (sep_more (T "====") (T "  ")); [a_word|a_gap| |discriminate]. seps ["===="; "====="; "==="]%string.
  - apply rows_row.
    { apply (a_report_row (T "1") 1 (T "0.8") (grid 8 1) (T "x") (T "300") 300 (T "2000") 2000 (T "12") 12); try num; [dec "0"%string "8"%string|a_word|].
      apply (indent _ (T "  ") (T "1  0.8  x  300 2000 12") []); [repeat constructor|constructor|].
      apply (sep_more (T "1") (T "  ")); [a_word|a_gap| |discriminate]. apply (sep_more (T "0.8") (T "  ")); [a_word|a_gap| |discriminate].
      apply (sep_more (T "x") (T "  ")); [a_word|a_gap| |discriminate]. seps ["300"; "2000"; "12"]%string. }
    apply (rows_rule _ _ _ [T "===="; T "===="]). { apply (indent _ [] (T "==== ====") []); [constructor|constructor|]. seps ["===="; "===="]%string. } { left. reflexivity. }
    apply rows_row; [|constructor].
    apply (a_report_row (T "2") 2 (T "1.") (grid 1 0) (T "-") (T "200") 200 (T "1500") 1500 (T "3") 3); try num; [dec "1"%string ""%string|a_word|].
    apply (indent _ [] (T "2 1. - 200 1500 3") (T " ")); [constructor|repeat constructor|]. seps ["2"; "1."; "-"; "200"; "1500"; "3"]%string.
Qed.
Example C95_ex : tools_view (load_report (file_text [nl] ex_report)) = [(1%Z, Some (4 # 5)%Q, Some PYes); (2%Z, Some (1 # 1)%Q, Some PNo)].
Proof. vm_compute. reflexivity. Qed.

(** ** C96 *)
(** A settings file gives the coordinates, units and places stated last.  This is refuted for incremental coordinates. *)
Definition unit_val (u : unit_) : SettingsModel.val := match u with Inch => SettingsModel.S "inch" | Metric => SettingsModel.S "metric" end.
Definition notation_val (absolute : bool) : SettingsModel.val := if absolute then SettingsModel.S "absolute" else SettingsModel.S "incremental".
Definition C96_claim : Prop := forall es ts eol a u i d, settings_file es ts -> line_end eol ->
  last_of coordinates es = Some a -> last_of output_units es = Some u -> last_of integer_places es = Some i -> last_of decimal_places es = Some d ->
  exists s, load_settings (file_text eol ts) = Ok s /\ notation s = notation_val a /\ units s = unit_val u /\ format s = VSeq [i; d].
Theorem C96_settings_partial : forall es ts eol u i d, settings_file es ts -> line_end eol ->
  last_of coordinates es = Some true -> last_of output_units es = Some u -> last_of integer_places es = Some i -> last_of decimal_places es = Some d ->
  exists s, load_settings (file_text eol ts) = Ok s /\ notation s = notation_val true /\ units s = unit_val u /\ format s = VSeq [i; d].
Proof. exact C96_lemma. Qed.
Print Assumptions C96_settings_partial.
Theorem C96_missing : forall es ts eol, settings_file es ts -> line_end eol ->
  last_of coordinates es = None \/ last_of output_units es = None \/ last_of integer_places es = None \/ last_of decimal_places es = None ->
  load_settings (file_text eol ts) = Err KeyError.
Proof. exact C96_missing_lemma. Qed.
Print Assumptions C96_missing.
Definition ex_settings (a : string) : list text := [T "COORDINATES " ++ T a; T ""; T "OUTPUT-UNITS METRIC"; T "INTEGER-PLACES 3"; T "ZERO-SUPPRESS NO"; T "  DECIMAL-PLACES  4"].
Lemma ex_settings_ok b : settings_file [Coordinates b; OutputUnits Metric; IntegerPlaces 3; DecimalPlaces 4] (ex_settings (if b then "ABSOLUTE" else "INCREMENTAL")).
Proof.
  apply settings_set. { destruct b; [apply set_abs; apply (indent _ [] (T "COORDINATES ABSOLUTE") []); [constructor|constructor|]; seps ["COORDINATES"; "ABSOLUTE"]%string
    |apply set_inc; apply (indent _ [] (T "COORDINATES INCREMENTAL") []); [constructor|constructor|]; seps ["COORDINATES"; "INCREMENTAL"]%string]. }
  apply (settings_other []). { apply (indent _ [] [] []); constructor. } { exact Logic.I. }
  apply settings_set. { apply set_metric. apply (indent _ [] (T "OUTPUT-UNITS METRIC") []); [constructor|constructor|]. seps ["OUTPUT-UNITS"; "METRIC"]%string. }
  apply settings_set. { apply (set_int 3 (T "3")); [num|]. apply (indent _ [] (T "INTEGER-PLACES 3") []); [constructor|constructor|]. seps ["INTEGER-PLACES"; "3"]%string. }
  apply (settings_other [T "ZERO-SUPPRESS"; T "NO"]). { apply (indent _ [] (T "ZERO-SUPPRESS NO") []); [constructor|constructor|]. seps ["ZERO-SUPPRESS"; "NO"]%string. } { cbn. intuition discriminate. }
  apply settings_set; [|constructor]. apply (set_dec 4 (T "4")); [num|]. apply (indent _ (T "  ") (T "DECIMAL-PLACES  4") []); [repeat constructor|constructor|].
  apply (sep_more (T "DECIMAL-PLACES") (T "  ")); [a_word|a_gap| |discriminate]. seps ["4"]%string.
Qed.
Example C96_ex : match load_settings (file_text [nl] (ex_settings "ABSOLUTE")) with Ok s => notation s = SettingsModel.S "absolute" /\ units s = SettingsModel.S "metric" /\ format s = VSeq [3; 4]%Z | Err _ => False end.
Proof. vm_compute. repeat split; reflexivity. Qed.
Theorem C96_incremental_refuted : ~ C96_claim /\ load_settings (file_text [nl] (ex_settings "INCREMENTAL")) = Err ValueError.
Proof.
  assert (L : load_settings (file_text [nl] (ex_settings "INCREMENTAL")) = Err ValueError) by (vm_compute; reflexivity). split; [|exact L].
  intros H. destruct (H _ _ [nl] false Metric 3%Z 4%Z (ex_settings_ok false) (or_introl eq_refl) eq_refl eq_refl eq_refl eq_refl) as (s & E & _). rewrite L in E. discriminate E.
Qed.
Print Assumptions C96_incremental_refuted.
