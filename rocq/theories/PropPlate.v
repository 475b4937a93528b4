(** Which tools of a drill file are plated. *)
From Verif Require Import PyBase QcLib NumModel NumSpec NumProofs GerberText ExcellonModel ExcellonFile ExcellonSpec ExcellonProofs ExcellonRun
  ToolModel ToolSpec ToolProofs HeadSpec HeadRun PlateSpec PlateRun PropExcellon PropTool.
From Coq Require Import QArith Qcanon Lia.
Open Scope list_scope.
Open Scope Qc_scope.

(** ** C110 *)
(** The tool of every hole is plated as the header states (python 2, as in C94).  This is refuted. *)
Definition C110_claim : Prop := forall se ext fs pre u z fo tu i d ns xs es hl e prog body tail eol,
  opening fs pre -> format_text fo tu -> (i, d) = format_in fo fs se -> readable i d -> noted i d z ns xs es hl ->
  (e = T "%" \/ e = T "M95") -> Forall2 (says i d z) prog body -> (tail = [] \/ tail = [T "M30"]) -> line_end eol -> tool_known (known xs es ext 1) prog ->
  exists f, parse_raw (holesize false) se ext (file_text eol (T "M48" :: pre ++ (unit_text u ++ zeros_text z ++ tu) :: hl ++ e :: body ++ tail)) = Ok f /\
    Forall2 (hole_plated (xf_store f) (stated ns ext)) (xf_hits f) (holes None (start_inc se) (0, 0) prog).
(** Proved: the plating that is read, for all files. *)
Theorem C110_plating_partial : forall se ext fs pre u z fo tu i d ns xs es hl e prog body tail eol,
  opening fs pre -> format_text fo tu -> (i, d) = format_in fo fs se -> readable i d -> noted i d z ns xs es hl ->
  (e = T "%" \/ e = T "M95") -> Forall2 (says i d z) prog body -> (tail = [] \/ tail = [T "M30"]) -> line_end eol -> tool_known (known xs es ext 1) prog ->
  exists f, parse_raw (holesize false) se ext (file_text eol (T "M48" :: pre ++ (unit_text u ++ zeros_text z ++ tu) :: hl ++ e :: body ++ tail)) = Ok f /\
    Forall2 (hole_plated (xf_store f) (plated_as ns ext)) (xf_hits f) (holes None (start_inc se) (0, 0) prog).
Proof. intros se ext fs pre u z fo tu i d ns xs es hl e prog body tail eol. exact (plated_lemma _ se ext fs pre u z fo tu i d ns xs es hl e prog body tail eol (or_intror eq_refl)). Qed.
Print Assumptions C110_plating_partial.
(** Without hole sizes in comments it is what is stated, for every version of python. *)
Theorem C110_types : forall py3 se ext fs pre u z fo tu i d ns xs hl e prog body tail eol,
  opening fs pre -> format_text fo tu -> (i, d) = format_in fo fs se -> readable i d -> noted i d z ns xs [] hl ->
  (e = T "%" \/ e = T "M95") -> Forall2 (says i d z) prog body -> (tail = [] \/ tail = [T "M30"]) -> line_end eol -> tool_known (known xs [] ext 1) prog ->
  exists f, parse_raw (holesize py3) se ext (file_text eol (T "M48" :: pre ++ (unit_text u ++ zeros_text z ++ tu) :: hl ++ e :: body ++ tail)) = Ok f /\
    Forall2 (hole_plated (xf_store f) (stated ns ext)) (xf_hits f) (holes None (start_inc se) (0, 0) prog).
Proof. exact types_lemma. Qed.
Print Assumptions C110_types.

Definition ex_notes : list note := [NType PYes; NSize 2 PNo; NSize 3 POptional; NDefine 1].
Example C110_ex_hypotheses : noted 3 3 ZTrail ex_notes [mkDef 1 [("C"%char, grid 5 1)]] [ex_size_entry; ex_tool_size_entry] ex_head.
Proof.
  apply noted_plated. apply (noted_size 3 3 ZTrail [] [] ex_size ex_size_entry); [constructor|constructor|exact ex_size_ok|].
  apply (noted_size 3 3 ZTrail (T " ") [] ex_tool_size ex_tool_size_entry); [repeat constructor|constructor|exact ex_tool_size_ok|].
  apply (noted_define 3 3 ZTrail (mkDef 1 [("C"%char, grid 5 1)])). { apply (defines_tool 3 3 ZTrail 1 (T "1") _ (T "C0.5")); [digits|discriminate|reflexivity|].
    apply (params_one 3 3 ZTrail "C"%char (T "0.5") _ [] []); [cbn; tauto|apply (reads_point 3 3 ZTrail NoSign (T "0") (T "5")); [digits|digits|discriminate]|constructor]. }
  apply noted_remark; [|constructor]. apply (a_remark (T ";more")); [no_nl|]. intros k I O.
  assert (H : forallb (fun k => negb (text_in k (T ";more"))) keywords = true) by reflexivity. rewrite forallb_forall in H. specialize (H k I). rewrite (occurs_text_in k (T ";more")) in H; [discriminate| |exact O].
  intros ->. cbn in I. intuition discriminate.
Qed.
Definition platings (r : res xfile) : list (option (Z * option plating)) :=
  match r with Ok f => map (fun h => option_map (fun t => (t_num t, t_plated t)) (tool_of (xf_store f) h)) (xf_hits f) | Err _ => [] end.
Example C110_ex : platings (parse_raw (holesize false) x_default ex_ext (file_text [nl] ex_file_lines)) =
  [Some (1%Z, Some PYes); Some (2%Z, Some PNo); Some (3%Z, Some POptional); Some (4%Z, None)].
Proof. vm_compute. reflexivity. Qed.

(** A comment says that the hole is not plated, then the tool is defined: the tool is read as neither. *)
Definition ex_above : list text := [T "; " ++ ex_size; T "T2C0.5"].
Theorem C110_size_above_refuted : ~ C110_claim.
Proof.
  intros H. assert (N : noted 3 3 ZTrail [NSize 2 PNo; NDefine 2] [mkDef 2 [("C"%char, grid 5 1)]] [ex_size_entry] ex_above).
  { apply (noted_size 3 3 ZTrail [] [] ex_size ex_size_entry); [constructor|constructor|exact ex_size_ok|].
    apply (noted_define 3 3 ZTrail (mkDef 2 [("C"%char, grid 5 1)])); [|constructor]. apply (defines_tool 3 3 ZTrail 2 (T "2") _ (T "C0.5")); [digits|discriminate|reflexivity|].
    apply (params_one 3 3 ZTrail "C"%char (T "0.5") _ [] []); [cbn; tauto|apply (reads_point 3 3 ZTrail NoSign (T "0") (T "5")); [digits|digits|discriminate]|constructor]. }
  destruct (H x_default [] [] [] Metric ZTrail (Some (3, 3)%nat) (T ",000.000") 3%nat 3%nat [NSize 2 PNo; NDefine 2] [mkDef 2 [("C"%char, grid 5 1)]] [ex_size_entry] ex_above (T "%")
    [Use 2; At (Some (grid 1000 3)) (Some (grid 2000 3))] [T "T2"; T "X1000Y2000"] [] [nl]) as (f & PR & V); try exact N; try (now left).
  - constructor.
  - constructor.
  - reflexivity.
  - unfold readable. lia.
  - constructor; [apply (says_use 3 3 ZTrail 2 (T "2")); [digits|discriminate|cbn; lia|reflexivity]|]. constructor; [|constructor].
    apply (says_at 3 3 ZTrail _ _ (T "X1000") (T "Y2000")); [apply (field_some 3 3 ZTrail "X" (T "1000"))|apply (field_some 3 3 ZTrail "Y" (T "2000"))|left; discriminate];
      [apply (reads_digits 3 3 ZTrail NoSign (T "1000"))|apply (reads_digits 3 3 ZTrail NoSign (T "2000"))]; (digits || discriminate || (cbn; lia)).
  - assert (X : platings (Ok f) = [Some (2%Z, None)]) by (rewrite <- PR; vm_compute; reflexivity). unfold platings in X.
    destruct (xf_hits f) as [|h [|h' l]]; [discriminate| |discriminate]. inversion V as [|? ? ? ? V1 _]; subst. destruct V1 as (t & E & _ & P). cbn in X. rewrite E in X. cbn in X. injection X as _ X.
    rewrite X in P. discriminate P.
Qed.
Print Assumptions C110_size_above_refuted.
