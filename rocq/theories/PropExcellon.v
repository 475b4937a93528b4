(** Properties of drill files: reading. *)
From Verif Require Import PyBase QcLib NumModel NumSpec NumProofs GerberText ExcellonModel ExcellonFile ExcellonSpec ExcellonProofs ExcellonRun ExcellonMore.
Open Scope list_scope.
Open Scope Qc_scope.

(** The examples use no tool comments. *)
Definition no_comment_tool (u : unit_) (c : text) : res (option tool) := Ok None.
Definition flat (v : option (Z * option Qc * point)) : list Q :=
  match v with Some (n, Some d, p) => [inject_Z n; this d; this (fst p); this (snd p)] | _ => [] end.
Definition views (r : res xfile) : list (list Q) := match r with Ok f => map (fun h => flat (hole_view (xf_store f) h)) (xf_hits f) | Err _ => [] end.

(** ** C36 *)
(** A file with a header (units, zeros, an optional format, tool definitions) and a body of tool
    selections, mode changes, holes and repeats reads as exactly the holes of the program, in order,
    each with the number and the diameter of its tool. *)
Theorem C36_drilling : forall holesize se u z fo tu i d defs dl e prog body tail eol,
  format_text fo tu -> (i, d) = match fo with Some f => f | None => xs_format se end -> readable i d ->
  Forall2 (defines i d z) defs dl -> (e = T "%" \/ e = T "M95") -> Forall2 (says i d z) prog body ->
  (tail = [] \/ tail = [T "M30"]) -> line_end eol -> tool_known (is_defined 1 defs) prog ->
  exists f, parse_raw holesize se [] (file_text eol (T "M48" :: (unit_text u ++ zeros_text z ++ tu) :: dl ++ e :: body ++ tail)) = Ok f /\
    map (hole_view (xf_store f)) (xf_hits f) =
      map (fun h => Some (fst h, diameter defs u (fst h), snd h)) (holes None (start_inc se) (0, 0) prog) /\
    xs_units (xf_set f) = u /\ xs_format (xf_set f) = (i, d) /\ xs_zeros (xf_set f) = z.
Proof. exact C36_lemma. Qed.
Print Assumptions C36_drilling.

Definition ex_dl : list text := [T "T1C0.024"; T "T02F200C.125"].
Definition ex_defs : list definition :=
  [mkDef 1 [("C"%char, grid 24 3)]; mkDef 2 [("F"%char, grid (200 * 10 ^ 3) 4); ("C"%char, grid 125 3)]].
Definition ex_body : list text := [T "T1"; T "X0100Y02"; T "Y-0050"; T "ICI,ON"; T "X01"; T "R2X005"; T "G90"; T "T02"; T "X0.5Y1.25"].
Definition ex_prog : list instr :=
  [Use 1; At (Some (grid (100 * 10 ^ 2) 4)) (Some (grid (2 * 10 ^ 4) 4)); At None (Some (- grid (50 * 10 ^ 2) 4)); Inc;
   At (Some (grid (1 * 10 ^ 4) 4)) None; Rep 2 (Some (grid (5 * 10 ^ 3) 4)) None; Abs; Use 2; At (Some (grid 5 1)) (Some (grid 125 2))].
Ltac digits := repeat constructor; cbn; tauto.
Ltac a_number :=
  match goal with
  | |- reads _ _ _ ?t _ =>
      first [ refine (reads_digits _ _ _ NoSign t _ _ _); [digits|discriminate|cbn; lia]
            | refine (reads_digits _ _ _ Minus (List.tl t) _ _ _); [digits|discriminate|cbn; lia] ]
  end.
Example C36_ex_hypotheses :
  Forall2 (defines 2 4 ZLead) ex_defs ex_dl /\ Forall2 (says 2 4 ZLead) ex_prog ex_body /\ tool_known (is_defined 1 ex_defs) ex_prog.
Proof.
  split; [|split].
  - repeat constructor.
    + apply (defines_tool 2 4 ZLead 1 (T "1") _ (T "C0.024")); [digits|discriminate|reflexivity|].
      apply (params_one 2 4 ZLead "C"%char (T "0.024") _ [] []); [cbn; tauto|apply (reads_point 2 4 ZLead NoSign (T "0") (T "024")); [digits|digits|discriminate]|constructor].
    + apply (defines_tool 2 4 ZLead 2 (T "02") _ (T "F200C.125")); [digits|discriminate|reflexivity|].
      apply (params_one 2 4 ZLead "F"%char (T "200") _ [_] (T "C.125")); [cbn; tauto|a_number|].
      apply (params_one 2 4 ZLead "C"%char (T ".125") _ [] []); [cbn; tauto|apply (reads_point 2 4 ZLead NoSign [] (T "125")); [digits|digits|discriminate]|constructor].
  - unfold ex_prog, ex_body. constructor; [apply (says_use 2 4 ZLead 1 (T "1")); [digits|discriminate|cbn; lia|reflexivity]|].
    constructor; [apply (says_at 2 4 ZLead _ _ (T "X0100") (T "Y02")); [apply (field_some 2 4 ZLead "X" (T "0100")); a_number|apply (field_some 2 4 ZLead "Y" (T "02")); a_number|left; discriminate]|].
    constructor; [apply (says_at 2 4 ZLead _ _ [] (T "Y-0050")); [constructor|apply (field_some 2 4 ZLead "Y" (T "-0050")); a_number|right; discriminate]|].
    constructor; [constructor|].
    constructor; [apply (says_at 2 4 ZLead _ _ (T "X01") []); [apply (field_some 2 4 ZLead "X" (T "01")); a_number|constructor|left; discriminate]|].
    constructor; [apply (says_rep 2 4 ZLead 2 (T "2") _ _ (T "X005") []); [digits|discriminate|reflexivity|apply (field_some 2 4 ZLead "X" (T "005")); a_number|constructor]|].
    constructor; [constructor|].
    constructor; [apply (says_use 2 4 ZLead 2 (T "02")); [digits|discriminate|cbn; lia|reflexivity]|].
    constructor; [|constructor]. apply (says_at 2 4 ZLead _ _ (T "X0.5") (T "Y1.25")); [apply (field_some 2 4 ZLead "X" (T "0.5"))|apply (field_some 2 4 ZLead "Y" (T "1.25"))|left; discriminate].
    + apply (reads_point 2 4 ZLead NoSign (T "0") (T "5")); [digits|digits|discriminate].
    + apply (reads_point 2 4 ZLead NoSign (T "1") (T "25")); [digits|digits|discriminate].
  - cbn. left. discriminate.
Qed.
Definition ex_text : text := file_text [nl] (T "M48" :: T "INCH,LZ" :: ex_dl ++ T "%" :: ex_body ++ [T "M30"]).
Example C36_ex : views (parse_raw no_comment_tool x_default [] ex_text) =
  [[1 # 1; 3 # 125; 1 # 1; 2 # 1]; [1 # 1; 3 # 125; 1 # 1; -1 # 2]; [1 # 1; 3 # 125; 2 # 1; -1 # 2]; [1 # 1; 3 # 125; 5 # 2; -1 # 2];
   [1 # 1; 3 # 125; 3 # 1; -1 # 2]; [2 # 1; 1 # 8; 1 # 2; 5 # 4]]%Q.
Proof. vm_compute. reflexivity. Qed.

(** ** C37 *)
Theorem C37_interchangeable : forall holesize se u z fo tu i d defs dl e prog body body' tail eol,
  format_text fo tu -> (i, d) = match fo with Some f => f | None => xs_format se end -> readable i d ->
  Forall2 (defines i d z) defs dl -> (e = T "%" \/ e = T "M95") -> (tail = [] \/ tail = [T "M30"]) -> line_end eol ->
  plain prog -> tool_known (is_defined 1 defs) prog ->
  (Forall2 (says i d z) prog body -> Forall2 (says i d z) (to_increments (0, 0) prog) body' ->
   exists f f',
     parse_raw holesize se [] (file_text eol (T "M48" :: (unit_text u ++ zeros_text z ++ tu) :: dl ++ e :: (T "ICI,OFF" :: body) ++ tail)) = Ok f /\
     parse_raw holesize se [] (file_text eol (T "M48" :: (unit_text u ++ zeros_text z ++ tu) :: dl ++ e :: (T "ICI,ON" :: body') ++ tail)) = Ok f' /\
     map (hole_view (xf_store f)) (xf_hits f) = map (hole_view (xf_store f')) (xf_hits f') /\
     List.length (xf_hits f) = List.length (holes None false (0, 0) prog)) /\
  (Forall2 (says i d z) prog body' -> Forall2 (says i d z) (to_positions (0, 0) prog) body ->
   exists f f',
     parse_raw holesize se [] (file_text eol (T "M48" :: (unit_text u ++ zeros_text z ++ tu) :: dl ++ e :: (T "ICI,OFF" :: body) ++ tail)) = Ok f /\
     parse_raw holesize se [] (file_text eol (T "M48" :: (unit_text u ++ zeros_text z ++ tu) :: dl ++ e :: (T "ICI,ON" :: body') ++ tail)) = Ok f' /\
     map (hole_view (xf_store f)) (xf_hits f) = map (hole_view (xf_store f')) (xf_hits f') /\
     List.length (xf_hits f) = List.length (holes None true (0, 0) prog)).
Proof. exact C37_lemma. Qed.
Print Assumptions C37_interchangeable.
(** Two texts of the same job. *)
Definition ex_file (body : list text) : text := file_text [nl] (T "M48" :: T "INCH,LZ" :: ex_dl ++ T "%" :: body ++ [T "M30"]).
Example C37_ex :
  let a := views (parse_raw no_comment_tool x_default [] (ex_file [T "ICI,OFF"; T "T1"; T "X01Y02"; T "X03"; T "R2Y01"; T "X04Y01"])) in
  let b := views (parse_raw no_comment_tool x_default [] (ex_file [T "ICI,ON"; T "T1"; T "X01Y02"; T "X02"; T "R2Y01"; T "X01Y-03"])) in
  a = b /\ List.length a = 5%nat.
Proof. vm_compute. split; reflexivity. Qed.

(** ** C38 *)
(** At any point of the body, with a tool selected. *)
Theorem C38_repeat : forall holesize i d z st l n ds dx dy tx ty,
  x_prev st = [] -> x_state st <> SHeader -> x_format st = [Z.of_nat i; Z.of_nat d] -> readable i d -> x_zeros st = z ->
  x_active st = Some l -> digit_string ds -> ds <> [] -> int_of ds = Z.of_nat n ->
  field_reads i d z "X" tx dx -> field_reads i d z "Y" ty dy ->
  exists st', parse_line holesize st (T "R" ++ ds ++ tx ++ ty) = Ok st' /\
    x_hits st' = x_hits st ++ map (fun j => Hit (Some l) (along (x_pos st) (val dx) (val dy) j)) (seq 1 n) /\
    x_pos st' = along (x_pos st) (val dx) (val dy) n /\ x_active st' = Some l /\
    x_tools st' = x_tools st /\ x_notation st' = x_notation st /\ x_state st' = x_state st.
Proof. exact C38_lemma. Qed.
Print Assumptions C38_repeat.
Example C38_ex : exists st, parse_lines no_comment_tool (x_start x_default []) [T "M48"; T "INCH,LZ"; T "T1C.1"; T "%"; T "T1"; T "X01Y01"] = Ok st /\
  x_prev st = [] /\ x_state st = SDrill /\ x_format st = [2; 4]%Z /\ x_active st = Some 0%nat /\
  match parse_line no_comment_tool st (T "R3X005Y-01") with
  | Ok st' => map (fun h => match h with Hit _ p => (this (fst p), this (snd p)) | _ => (0, 0)%Q end) (x_hits st') = [(1 # 1, 1 # 1); (3 # 2, 0 # 1); (2 # 1, -1 # 1); (5 # 2, -2 # 1)]%Q
  | Err _ => False
  end.
Proof. eexists. split; [vm_compute; reflexivity|]. repeat split. Qed.

(** ** C39 *)
(** The full statement is false: a slot routed in linear mode is not counted,
    and hits made with a tool before it is defined again are not found. *)
Definition count_of (data : text) (n : Z) : option (option nat * nat * nat) :=
  match parse_raw no_comment_tool x_default [] data with
  | Ok f => match hit_count f n with Ok c => Some (c, made_with_number (xf_store f) n (xf_hits f), List.length (xf_hits f)) | Err _ => None end
  | Err _ => None
  end.
Theorem C39_linear_refuted : exists data, count_of data 1 = Some (Some 1%nat, 2%nat, 2%nat).
Proof. exists (file_text [nl] (map T ["M48"; "INCH,LZ"; "T1C.1"; "%"; "T1"; "G00X01Y01"; "M15"; "G01X02Y01"; "X02Y02"; "M16"; "M30"]%string)). vm_compute. reflexivity. Qed.
Print Assumptions C39_linear_refuted.
Theorem C39_redefined_refuted : exists data, count_of data 1 = Some (Some 1%nat, 2%nat, 2%nat) /\ ~ occurs (T "M15") data.
Proof.
  set (ls := map T ["M48"; "INCH,LZ"; "T1C.1"; "%"; "T1"; "X01Y01"; "M48"; "T1C.2"; "%"; "T1"; "X02Y02"; "M30"]%string).
  exists (file_text [nl] ls). split; [vm_compute; reflexivity|]. intros (a & b & E).
  assert (C : In "5"%char (file_text [nl] ls)) by (rewrite E; apply in_or_app; right; apply in_or_app; left; cbn; tauto).
  clear E. vm_compute in C. repeat (destruct C as [C|C]; [discriminate|]). exact C.
Qed.
Print Assumptions C39_redefined_refuted.
(** What holds of every file without M15 (rout down): the counter of a tool object is the number of
    entries made with it; *)
Theorem C39_counters_partial : forall holesize, (forall u c t, holesize u c = Ok (Some t) -> t_hits t = 0%nat) ->
  forall se ext data f n l, Forall (fun t => t_hits t = 0%nat) ext -> ~ occurs (T "M15") data ->
  parse_raw holesize se ext data = Ok f -> In (n, l) (xf_tools f) ->
  hit_count f n = Ok (Some (made_with l (xf_hits f))).
Proof. exact C39_object. Qed.
Print Assumptions C39_counters_partial.
(** if moreover every hit still refers to a tool of the table, the count by number is right, *)
Theorem C39_numbers_partial : forall holesize, (forall u c t, holesize u c = Ok (Some t) -> t_hits t = 0%nat) ->
  forall se ext data f n, Forall (fun t => t_hits t = 0%nat) ext -> ~ occurs (T "M15") data ->
  parse_raw holesize se ext data = Ok f -> current_tools f ->
  hit_count f n = Ok (if existsb (fun p => (fst p =? n)%Z) (xf_tools f) then Some (made_with_number (xf_store f) n (xf_hits f)) else None).
Proof. exact C39_number. Qed.
Print Assumptions C39_numbers_partial.
(** and the counts add up to the number of hits. *)
Theorem C39_total_partial : forall holesize, (forall u c t, holesize u c = Ok (Some t) -> t_hits t = 0%nat) ->
  forall se ext data f, Forall (fun t => t_hits t = 0%nat) ext -> ~ occurs (T "M15") data ->
  parse_raw holesize se ext data = Ok f -> current_tools f ->
  exists c, mapM (fun p => hit_count f (fst p)) (xf_tools f) = Ok (map Some c) /\ total c = List.length (xf_hits f).
Proof. exact C39_total. Qed.
Print Assumptions C39_total_partial.
(** Of every file: a counter never exceeds the number of entries. *)
Theorem C39_at_most_partial : forall holesize, (forall u c t, holesize u c = Ok (Some t) -> t_hits t = 0%nat) ->
  forall se ext data f n l, Forall (fun t => t_hits t = 0%nat) ext ->
  parse_raw holesize se ext data = Ok f -> In (n, l) (xf_tools f) ->
  exists k, hit_count f n = Ok (Some k) /\ (k <= made_with l (xf_hits f))%nat.
Proof. exact C39_at_most. Qed.
Print Assumptions C39_at_most_partial.
Example C39_ex : ~ occurs (T "M15") ex_text /\ (exists f, parse_raw no_comment_tool x_default [] ex_text = Ok f /\ current_tools f) /\
  count_of ex_text 1 = Some (Some 5%nat, 5%nat, 6%nat) /\ count_of ex_text 2 = Some (Some 1%nat, 1%nat, 6%nat) /\ count_of ex_text 3 = Some (None, 0%nat, 6%nat).
Proof.
  split; [|split; [|vm_compute; auto]].
  - intros (a & b & E).
    assert (W : text_in (T "M15") ex_text = true).
    { rewrite E. clear E. induction a as [|c a IH]; [reflexivity|]. cbn [app text_in]. rewrite IH. apply Bool.orb_true_r. }
    vm_compute in W. discriminate.
  - eexists. split; [vm_compute; reflexivity|]. intros h I. cbn [xf_hits] in I.
    repeat (destruct I as [I|I]; [subst h; eexists _, _; split; [|reflexivity]; cbn; auto|]). destruct I.
Qed.
