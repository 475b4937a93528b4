(** Properties of drill programs that mill slots. *)
From Verif Require Import PyBase QcLib NumModel NumSpec NumProofs GerberText SettingsModel ExcellonModel ExcellonFile ExcellonSpec ExcellonProofs ExcellonRun
  ToolModel ToolSpec ToolProofs HeadSpec HeadRun RoutSpec RoutRun PropExcellon.
From Coq Require Import QArith Qcanon.
Open Scope list_scope.
Open Scope Qc_scope.

(** ** C114 *)
(** Reading a file gives, in order, the holes, the slots and the milled segments that its program makes, each with its tool.
    This is refuted. *)
Definition C114_claim : Prop := forall py3 se ext fs pre u z fo tu i d xs hl e prog body tail eol,
  opening fs pre -> format_text fo tu -> (i, d) = format_in fo fs se -> readable i d -> header i d z xs [] hl ->
  (e = T "%" \/ e = T "M95") -> Forall2 (expresses i d z) prog body -> (tail = [] \/ tail = [T "M30"]) -> line_end eol ->
  tooled (known xs [] ext 1) Holing false prog -> sensible Holing prog ->
  exists f, parse_raw (holesize py3) se ext (file_text eol (T "M48" :: pre ++ (unit_text u ++ zeros_text z ++ tu) :: hl ++ e :: List.concat body ++ tail)) = Ok f /\
    Forall2 (mark_as (xf_store f) (wanted u xs [] ext)) (xf_hits f) (marks None (start_inc se) (0, 0) Holing false prog) /\
    xs_units (xf_set f) = u /\ xs_format (xf_set f) = (i, d) /\ xs_zeros (xf_set f) = z.
(** Proved for programs without arcs whose slots give both coordinates of their start, as positions. *)
Theorem C114_routing_partial : forall py3 se ext fs pre u z fo tu i d xs hl e prog body tail eol,
  opening fs pre -> format_text fo tu -> (i, d) = format_in fo fs se -> readable i d -> header i d z xs [] hl ->
  (e = T "%" \/ e = T "M95") -> Forall2 (expresses i d z) prog body -> (tail = [] \/ tail = [T "M30"]) -> line_end eol ->
  tooled (known xs [] ext 1) Holing false prog -> sensible Holing prog -> supported (start_inc se) prog ->
  exists f, parse_raw (holesize py3) se ext (file_text eol (T "M48" :: pre ++ (unit_text u ++ zeros_text z ++ tu) :: hl ++ e :: List.concat body ++ tail)) = Ok f /\
    Forall2 (mark_as (xf_store f) (wanted u xs [] ext)) (xf_hits f) (marks None (start_inc se) (0, 0) Holing false prog) /\
    xs_units (xf_set f) = u /\ xs_format (xf_set f) = (i, d) /\ xs_zeros (xf_set f) = z.
Proof. intros py3 se ext fs pre u z fo tu i d xs hl e prog body tail eol. exact (C114_lemma _ se ext fs pre u z fo tu i d xs [] hl e prog body tail eol (or_introl eq_refl)). Qed.
Print Assumptions C114_routing_partial.

(** Numbers of two digits before the point. *)
Definition n1 : Qc := grid 10000 4.
Definition n2 : Qc := grid 20000 4.
Definition n3 : Qc := grid 30000 4.
Ltac rd t := exact (reads_digits 2 4 ZLead NoSign (T t) ltac:(digits) ltac:(discriminate) ltac:(cbn; lia)).
Lemma rd1 : reads 2 4 ZLead (T "01") n1. Proof. rd "01"%string. Qed.
Lemma rd2 : reads 2 4 ZLead (T "02") n2. Proof. rd "02"%string. Qed.
Lemma rd3 : reads 2 4 ZLead (T "03") n3. Proof. rd "03"%string. Qed.
Lemma at_xy a b x y : reads 2 4 ZLead (T a) x -> reads 2 4 ZLead (T b) y -> place 2 4 ZLead (Some x) (Some y) ((T "X" ++ T a) ++ T "Y" ++ T b).
Proof. intros A B. apply a_place; [now constructor|now constructor|left; discriminate]. Qed.
Lemma at_x a x : reads 2 4 ZLead (T a) x -> place 2 4 ZLead (Some x) None ((T "X" ++ T a) ++ []).
Proof. intros A. apply a_place; [now constructor|constructor|left; discriminate]. Qed.
Lemma at_y b y : reads 2 4 ZLead (T b) y -> place 2 4 ZLead None (Some y) ([] ++ T "Y" ++ T b).
Proof. intros B. apply a_place; [constructor|now constructor|right; discriminate]. Qed.
Lemma use1 : says 2 4 ZLead (Use 1) (T "T" ++ T "1").
Proof. apply says_use; [digits|discriminate|cbn; lia|reflexivity]. Qed.
(** A hole, three milled segments, a hole and a slot. *)
Definition rout_prog : list step :=
  [Plain (Use 1); Plain (At (Some n1) (Some n2)); Move (Some n2) (Some n2); Lower; Mill (Some n3) None; Mill None (Some n3); Plain (At (Some n1) (Some n1)); Raise;
   Plain (At (Some n2) None); Drilling; Plain (At (Some n3) (Some n3)); Groove (Some n1) (Some n1) (Some n2) None].
Definition rout_body : list (list text) :=
  [[T "T1"]; [T "X01Y02"]; [T "G00X02Y02"]; [T "M15"]; [T "G01X03"]; [T "G01"; T "Y03"]; [T "X01Y01"]; [T "M16"]; [T "X02"]; [T "G05"]; [T "X03Y03"]; [T "X01Y01G85X02"]].
Example C114_ex_hypotheses : Forall2 (expresses 2 4 ZLead) rout_prog rout_body /\ tooled false Holing false rout_prog /\ sensible Holing rout_prog /\ supported false rout_prog.
Proof.
  split; [|split; [cbn; left; discriminate|split; [cbn; tauto|cbn; repeat split; discriminate]]].
  pose proof rd1. pose proof rd2. pose proof rd3.
  constructor; [apply ex_plain, use1|]. constructor; [apply ex_plain, place_says, (at_xy "01" "02"); assumption|]. constructor; [apply ex_move, (at_xy "02" "02"); assumption|].
  constructor; [constructor|]. constructor; [apply ex_mill, (at_x "03"); assumption|]. constructor; [apply ex_mill_next, (at_y "03"); assumption|].
  constructor; [apply ex_plain, place_says, (at_xy "01" "01"); assumption|]. constructor; [constructor|]. constructor; [apply ex_plain, place_says, (at_x "02"); assumption|].
  constructor; [constructor|]. constructor; [apply ex_plain, place_says, (at_xy "03" "03"); assumption|].
  constructor; [apply (ex_groove 2 4 ZLead _ _ _ _ ((T "X" ++ T "01") ++ T "Y" ++ T "01") ((T "X" ++ T "02") ++ [])); [now apply (at_xy "01" "01")|now apply (at_x "02")]|]. constructor.
Qed.
(** The tool numbers and the marks, as fractions, of the hits of a file. *)
Definition mark_q (m : mark) : string * list Q :=
  match m with
  | Hole p => ("hole"%string, [this (fst p); this (snd p)])
  | Milled a b => ("milled"%string, [this (fst a); this (snd a); this (fst b); this (snd b)])
  | Bent _ a b => ("bent"%string, [this (fst a); this (snd a); this (fst b); this (snd b)])
  | Slotted a b => ("slotted"%string, [this (fst a); this (snd a); this (fst b); this (snd b)])
  end.
Definition rout_file (body : list (list text)) : res xfile :=
  parse_raw (holesize true) x_default [] (file_text [nl] (T "M48" :: [] ++ (unit_text Inch ++ zeros_text ZLead ++ T "") :: [T "T1C.1"] ++ T "%" :: List.concat body ++ [T "M30"])).
Definition rout_view (r : res xfile) : list (option Z * option (string * list Q)) :=
  match r with Ok f => map (fun h => (option_map t_num (tool_of (xf_store f) h), option_map mark_q (mark_of h))) (xf_hits f) | Err _ => [] end.
Example C114_ex : rout_view (rout_file rout_body) =
  [(Some 1%Z, Some ("hole"%string, [1; 2])); (Some 1%Z, Some ("milled"%string, [2; 2; 3; 2])); (Some 1%Z, Some ("milled"%string, [3; 2; 3; 3]));
   (Some 1%Z, Some ("milled"%string, [3; 3; 1; 1])); (Some 1%Z, Some ("hole"%string, [3; 3])); (Some 1%Z, Some ("slotted"%string, [1; 1; 2; 1]))]%Q.
Proof. vm_compute. reflexivity. Qed.
Lemma rout_head : header 2 4 ZLead [mkDef 1 [("C"%char, grid 1 1)]] [] [T "T1C.1"].
Proof.
  apply header_define; [|constructor]. apply (defines_tool 2 4 ZLead 1 (T "1") [("C"%char, grid 1 1)] (T "C.1")); [digits|discriminate|reflexivity|].
  apply (params_one 2 4 ZLead "C"%char (T ".1") _ [] []); [cbn; tauto|apply (reads_point 2 4 ZLead NoSign [] (T "1")); [digits|digits|discriminate]|constructor].
Qed.
(** What the claim says about the files above. *)
Lemma claimed prog body : C114_claim -> Forall2 (expresses 2 4 ZLead) prog body -> tooled true Holing false prog -> sensible Holing prog ->
  map snd (rout_view (rout_file body)) = map (fun x => Some (mark_q (snd x))) (marks None false (0, 0) Holing false prog).
Proof.
  intros C F K V.
  destruct (C true x_default [] [] [] Inch ZLead None [] 2%nat 4%nat _ _ (T "%") prog body [T "M30"] [nl] opening_none format_no eq_refl ltac:(repeat split; lia) rout_head
    (or_introl eq_refl) F (or_intror eq_refl) (or_introl eq_refl) K V) as (f & E & M & _).
  change (rout_file body = Ok f) in E. rewrite E. cbn [rout_view]. rewrite map_map. cbn [snd].
  change (start_inc x_default) with false in M. clear - M. induction M as [|h x hs ms (t & _ & _ & _ & H) _ IH]; [reflexivity|]. cbn [map]. rewrite H, IH. reflexivity.
Qed.
(** A slot that gives one coordinate of its start starts nowhere. *)
Theorem C114_start_refuted : ~ C114_claim.
Proof.
  intros C. pose proof rd1. pose proof rd2. pose proof rd3.
  assert (X := claimed [Plain (Use 1); Plain (At (Some n1) (Some n2)); Groove (Some n3) None None (Some n3)] [[T "T1"]; [T "X01Y02"]; [T "X03G85Y03"]] C).
  assert (Y : map snd (rout_view (rout_file [[T "T1"]; [T "X01Y02"]; [T "X03G85Y03"]])) = [Some ("hole"%string, [1; 2]); None]%Q) by (vm_compute; reflexivity).
  rewrite Y in X.
  discriminate X.
  - constructor; [apply ex_plain, use1|]. constructor; [apply ex_plain, place_says, (at_xy "01" "02"); assumption|].
    constructor; [|constructor]. apply (ex_groove 2 4 ZLead _ _ _ _ ((T "X" ++ T "03") ++ []) ([] ++ T "Y" ++ T "03")); [now apply (at_x "03")|now apply (at_y "03")].
  - cbn. left. discriminate.
  - cbn. tauto.
Qed.
Print Assumptions C114_start_refuted.
(** With increments, the increments of a slot are taken for its ends. *)
Theorem C114_increments_refuted : ~ C114_claim.
Proof.
  intros C. pose proof rd1. pose proof rd2. pose proof rd3.
  assert (X := claimed [Plain (Use 1); Plain Inc; Plain (At (Some n1) (Some n1)); Groove (Some n1) (Some n1) (Some n2) (Some n2)]
                       [[T "T1"]; [T "ICI,ON"]; [T "X01Y01"]; [T "X01Y01G85X02Y02"]] C).
  assert (Y : map snd (rout_view (rout_file [[T "T1"]; [T "ICI,ON"]; [T "X01Y01"]; [T "X01Y01G85X02Y02"]])) =
    [Some ("hole"%string, [1; 1]); Some ("slotted"%string, [1; 1; 2; 2])]%Q) by (vm_compute; reflexivity).
  rewrite Y in X. assert (Z : map (fun x => Some (mark_q (snd x))) (marks None false (0, 0) Holing false
    [Plain (Use 1); Plain Inc; Plain (At (Some n1) (Some n1)); Groove (Some n1) (Some n1) (Some n2) (Some n2)]) =
    [Some ("hole"%string, [1; 1]); Some ("slotted"%string, [2; 2; 4; 4])]%Q) by (vm_compute; reflexivity).
  rewrite Z in X. discriminate X.
  - constructor; [apply ex_plain, use1|]. constructor; [apply ex_plain; constructor|]. constructor; [apply ex_plain, place_says, (at_xy "01" "01"); assumption|].
    constructor; [|constructor]. apply (ex_groove 2 4 ZLead _ _ _ _ ((T "X" ++ T "01") ++ T "Y" ++ T "01") ((T "X" ++ T "02") ++ T "Y" ++ T "02")); [now apply (at_xy "01" "01")|now apply (at_xy "02" "02")].
  - cbn. left. discriminate.
  - cbn. tauto.
Qed.
Print Assumptions C114_increments_refuted.
(** An arc is passed over: nothing is milled, and the next segment starts where the arc did. *)
Theorem C114_arc_refuted : ~ C114_claim.
Proof.
  intros C. pose proof rd1. pose proof rd2. pose proof rd3.
  assert (X := claimed [Plain (Use 1); Move (Some n1) (Some n1); Lower; Bend false (Some n2) (Some n2); Mill (Some n3) None]
                       [[T "T1"]; [T "G00X01Y01"]; [T "M15"]; [T "G02X02Y02A01"]; [T "G01X03"]] C).
  assert (Y : map snd (rout_view (rout_file [[T "T1"]; [T "G00X01Y01"]; [T "M15"]; [T "G02X02Y02A01"]; [T "G01X03"]])) = [Some ("milled"%string, [1; 1; 3; 1])]%Q) by (vm_compute; reflexivity).
  rewrite Y in X. discriminate X.
  - constructor; [apply ex_plain, use1|]. constructor; [apply ex_move, (at_xy "01" "01"); assumption|]. constructor; [constructor|].
    constructor; [apply (ex_bend 2 4 ZLead false _ _ ((T "X" ++ T "02") ++ T "Y" ++ T "02") (T "01") n1); [now apply (at_xy "02" "02")|assumption]|].
    constructor; [apply ex_mill, (at_x "03"); assumption|constructor].
  - cbn. left. discriminate.
  - cbn. tauto.
Qed.
Print Assumptions C114_arc_refuted.

(** ** C115 *)
(** Whatever a file contains, nothing is milled unless some line lowers the tool. *)
Theorem C115_raised : forall holesize se ext data f, parse_raw holesize se ext data = Ok f -> never_lowers data -> forall h, In h (xf_hits f) -> ~ routed h.
Proof. exact C115_lemma. Qed.
Print Assumptions C115_raised.
(** The program above without M15: two holes and the slot. *)
Definition raised_lines : list text := T "M48" :: [] ++ (unit_text Inch ++ zeros_text ZLead ++ T "") :: [T "T1C.1"] ++ T "%" :: List.concat (firstn 3 rout_body ++ skipn 4 rout_body) ++ [T "M30"].
Example C115_ex_hypotheses : never_lowers (file_text [nl] raised_lines).
Proof. intros l H (r & E). revert r E. vm_compute in H. repeat (destruct H as [<-|H]; [intros r E; vm_compute in E; discriminate E|]). destruct H. Qed.
Example C115_ex : exists f, parse_raw (holesize true) x_default [] (file_text [nl] raised_lines) = Ok f /\ map snd (rout_view (Ok f)) =
  [Some ("hole"%string, [1; 2]); Some ("hole"%string, [3; 3]); Some ("slotted"%string, [1; 1; 2; 1])]%Q.
Proof. eexists. split; [vm_compute; reflexivity|vm_compute; reflexivity]. Qed.
(** With M15 the same file has segments. *)
Example C115_ex_lowered : exists f, rout_file rout_body = Ok f /\ exists h, In h (xf_hits f) /\ routed h.
Proof. eexists. split; [vm_compute; reflexivity|]. eexists. split; [right; left; reflexivity|exact I]. Qed.
