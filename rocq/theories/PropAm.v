(** Properties of the primitives of aperture macros: C80 to C83. *)
From Verif Require Import PyBase QcLib NumModel NumSpec NumProofs FloatCodec ReprModel ReprProofs MacroModel MacroSpec GerberText GerberTextSpec GerberEval
  AmModel AmSpec AmProofs AmWrite AmConv AmExamples.
Open Scope Qc_scope.
Open Scope list_scope.

(** C80: a number written with str() and read with float() is the same double. *)
Theorem C80_repr : forall v, double v -> py_float_fl rnd53 (py_repr v) = Ok v.
Proof. intros v D. rewrite float_repr. now rewrite D. Qed.
Print Assumptions C80_repr.
(** C80: a decimal of at most 15 digits is written as itself, though the computer holds the nearest double. *)
Theorem C80_decimal : forall m k, (Z.abs m < 10 ^ 15)%Z -> py_float (py_repr (grid m k)) = Ok (grid m k).
Proof. intros m k H. exact (proj1 (repr_decimal (grid m k) (grid_digitsP 15 m k H))). Qed.
Print Assumptions C80_decimal.
Example C80_texts : map (fun v => string_of_list_ascii (py_repr v)) [grid 1 1; grid (-3) 0; grid 5 5; zq (10 ^ 16); rnd53 (1 / zq 3)] =
  ["0.1"; "-3.0"; "5e-05"; "1e+16"; "0.3333333333333333"]%string.
Proof. vm_compute. reflexivity. Qed.

(** C81: a macro statement whose primitives hold numbers that the format of the text can show
    ([prim_writable]) is written so that reading the file and building the macro gives the same
    primitives.  Missing: see C81_refuted for what is not read back. *)
Theorem C81_macro_round_trip_partial : forall fs name ps, macro_name name -> ps <> [] -> Forall prim_writable ps -> reads_back fs name ps.
Proof. exact macro_file. Qed.
Print Assumptions C81_macro_round_trip_partial.
Example C81_sample : macro_name (T "PAD1") /\ Forall prim_writable sample /\
  string_of_list_ascii (filter (fun c => negb (ceq c nl)) (am_to_gerber (T "PAD1") sample)) =
  "%AMPAD1*1,1,1.5,0.1,-0.25*20,0,0.3,0.0,0.0,12.345678,1.0,45.0*4,1,3,1,1,2,1,1.234,2,1,1,-30.0*5,1,6,0.5,0.5,1.25,0.0*6,0,0,5.0,0.1,0.2,3,0.05,6.0,0.0*7,0,0,0.9,0.7,0.1,45.0*21,1,6.8,1.2,3.4,0.6,30.0*22,1,6.8,1.2,-3,0.6,0.0*%"%string.
Proof. split; [exact pad1_name|]. split; [exact sample_writable|vm_compute; reflexivity]. Qed.

(** C81: within a file, with another parameter after it: the rest is read as it would be without the macro. *)
Theorem C81_in_file_partial : forall depth fs st name ps rest, macro_name name -> ps <> [] -> Forall prim_writable ps ->
  exists macro instrs, read_macro macro = Ok instrs /\ am_build instrs [] = Ok ps /\
  forall l st', parse_data depth fs st ("%"%char :: rest) = Ok (l, st') ->
    parse_data depth fs st (am_to_gerber name ps ++ nl :: "%"%char :: rest) = Ok (SAM name macro [] :: l, st').
Proof. exact macro_in_file. Qed.
Print Assumptions C81_in_file_partial.
(** C81 in general is false.  Not read back are: a position of more than four digits (cut to four); a
    diameter below 0.0001 and a position of 10000 or more (written with an exponent, which the reader takes for
    several numbers); a comment (it gains a comma); a primitive of unknown code (written without '*', it
    swallows the next one); a macro without built primitives (written without its definition). *)
Theorem C81_macro_round_trip_refuted :
  ~ reads_back no_file (T "BOX") far /\ ~ reads_back no_file (T "BOX") tiny /\ ~ reads_back no_file (T "BOX") wide /\
  ~ reads_back no_file (T "BOX") commented /\ ~ reads_back no_file (T "BOX") unknown /\ ~ reads_back no_file (T "BOX") [].
Proof. exact refuted81. Qed.
Print Assumptions C81_macro_round_trip_refuted.
Example C81_misread :
  read_again (T "BOX") commented = Some [([], T ",pad"); ([1; 0; 0]%Q, [])] /\
  map nums tiny = [([this (dbl 5 5); 0; 0]%Q, [])] /\ read_again (T "BOX") tiny = Some [([5; 0; -5]%Q, [])].
Proof. exact refuted81_values. Qed.

(** C82: converting a statement changes its units once, keeps its name and turns every primitive of the
    table into the primitive with the same flags, counts and angles whose lengths are multiplied. *)
Theorem C82_to_metric : forall s, am_units s = Inch ->
  am_units (am_to_metric s) = Metric /\ am_name (am_to_metric s) = am_name s /\
  Forall2 (fun p p' => forall c vs, means c vs p -> exists n vs', rescaled (Q2Qc (127 # 5)) c n vs vs' /\ means c vs' p')
    (am_prims s) (am_prims (am_to_metric s)).
Proof. exact to_metric_lemma. Qed.
Print Assumptions C82_to_metric.
Theorem C82_to_inch : forall s, am_units s = Metric ->
  am_units (am_to_inch s) = Inch /\ am_name (am_to_inch s) = am_name s /\
  Forall2 (fun p p' => forall c vs, means c vs p -> exists n vs', rescaled (Q2Qc (5 # 127)) c n vs vs' /\ means c vs' p')
    (am_prims s) (am_prims (am_to_inch s)).
Proof. exact to_inch_lemma. Qed.
Print Assumptions C82_to_inch.
(** C82: a second conversion changes nothing, and there and back is the identity. *)
Theorem C82_once : forall s, am_to_metric (am_to_metric s) = am_to_metric s /\ am_to_inch (am_to_inch s) = am_to_inch s /\
  (am_units s = Inch -> am_to_inch (am_to_metric s) = s) /\ (am_units s = Metric -> am_to_metric (am_to_inch s) = s).
Proof. exact convert_statement. Qed.
Print Assumptions C82_once.
Example C82_polygon : let p := APolygon true 6 (1, zq 2) (zq 3) (zq 45) in
  means 5 [1; zq 6; 1; zq 2; zq 3; zq 45] p /\
  match prim_convert metric p with
  | APolygon on n c d r => (on, n, this (fst c), this (snd c), this d, this r)
  | _ => (false, 0%Z, 0%Q, 0%Q, 0%Q, 0%Q)
  end = (true, 6%Z, 127 # 5, 254 # 5, 381 # 5, 45 # 1)%Q.
Proof. split; [|vm_compute; reflexivity]. apply M_polygon; [split; auto|apply counts_int|lia]. Qed.

(** C83: the primitives of a macro are those that the table of the format gives for the values of its
    modifiers (rounded to doubles). *)
Theorem C83_build : forall bs vs ys ps, Forall block_ok bs -> macro_value (modifier_env vs) bs = Some ys ->
  Forall2 (fun y p => exists ws, snd y = map MNum ws /\ means (fst y) (map rnd53 ws) p) ys ps ->
  exists is, read_macro (macro_text bs) = Ok is /\ am_build is vs = Ok ps.
Proof. exact build_means. Qed.
Print Assumptions C83_build.
Example C83_by_modifiers : string_of_list_ascii (macro_text by_modifiers) = "1,1,$1x2,$2,0*21,1,2,3,0,0,45*"%string /\
  Forall block_ok by_modifiers /\ exists ys,
  macro_value (modifier_env [grid 75 2; zq 3]) by_modifiers = Some ys /\
  Forall2 (fun y p => exists ws, snd y = map MNum ws /\ means (fst y) (map rnd53 ws) p) ys
    [ACircle true (rnd53 (grid 75 2 * lit_value (mkLit (T "2") None))) (rnd53 (zq 3), rnd53 (lit_value (mkLit (T "0") None)));
     ACenter true (rnd53 (lit_value (mkLit (T "2") None))) (rnd53 (lit_value (mkLit (T "3") None)))
       (rnd53 (lit_value (mkLit (T "0") None)), rnd53 (lit_value (mkLit (T "0") None))) (rnd53 (lit_value (mkLit (T "45") None)))].
Proof. exact by_modifiers_case. Qed.

(** C83: with all its modifiers present a primitive other than an outline is accepted exactly when the table
    has it, and then it is the one in the table (superfluous modifiers are ignored). *)
Theorem C83_reads : forall c n vs p, known_code c -> c <> 4%Z -> (List.length (kinds c n) <= List.length vs)%nat ->
  from_gerber (yield_text (c, map MNum vs)) = Ok p <-> means c (map rnd53 (firstn (List.length (kinds c n)) vs)) p.
Proof. exact reads_means. Qed.
Print Assumptions C83_reads.
Theorem C83_missing : forall c n vs, known_code c -> c <> 4%Z -> vs <> [] -> (List.length vs < List.length (kinds c n))%nat ->
  from_gerber (yield_text (c, map MNum vs)) = Err IndexError.
Proof. exact few_modifiers. Qed.
Print Assumptions C83_missing.
Example C83_circle : known_code 1 /\ List.length (kinds 1 0) = 4%nat /\ from_gerber (yield_text (1%Z, map MNum [1; 1; 0])) = Err IndexError.
Proof. split; [now left|]. split; vm_compute; reflexivity. Qed.
(** C83: the same for an outline with the number of modifiers that its count announces. *)
Theorem C83_outline_partial : forall vs p q n, nth_error vs 1 = Some q -> counts (rnd53 q) (Z.of_nat n) -> List.length vs = List.length (kinds 4 n) ->
  from_gerber (yield_text (4%Z, map MNum vs)) = Ok p <-> means 4 (map rnd53 vs) p.
Proof. exact outline_counts. Qed.
Print Assumptions C83_outline_partial.
(** The whole part counts: 3.75 counts 3 points, and an outline with a count of 3.75 and 3 points after the start is read. *)
Definition three : list Qc := [1; Q2Qc (15 # 4); 0; 0; 1; 0; 0; 1; 0; 0; zq 45].
Example C83_counts : counts (Q2Qc (15 # 4)) 3 /\ ~ counts (Q2Qc (15 # 4)) 4 /\ counts (Q2Qc (-15 # 4)) (-3)%Z /\
  nth_error three 1 = Some (Q2Qc (15 # 4)) /\ counts (rnd53 (Q2Qc (15 # 4))) (Z.of_nat 3) /\ List.length three = List.length (kinds 4 3) /\
  match from_gerber (yield_text (4%Z, map MNum three)) with Ok (AOutline on _ l r) => (on, List.length l, this r) = ((true, 3%nat, (45 # 1)%Q)) | _ => False end.
Proof.
  split; [apply counts_trunc; reflexivity|]. split; [intros C; apply counts_trunc in C; discriminate|]. split; [apply counts_trunc; reflexivity|]. split; [reflexivity|].
  split; [apply counts_trunc; vm_compute; reflexivity|]. split; vm_compute; reflexivity.
Qed.
(** C83: an outline without its rotation is not in the table and is accepted all the same (the last coordinate
    serves as rotation). *)
Theorem C83_outline_refuted : exists p, from_gerber (yield_text (4%Z, map MNum no_rotation)) = Ok p /\ forall p', ~ means 4 (map rnd53 no_rotation) p'.
Proof. exact refuted83. Qed.
Print Assumptions C83_outline_refuted.
(** C83: a primitive of a code that is not in the table is never taken for one of the table. *)
Theorem C83_unknown : forall c vs p, (1 <= c)%Z -> ~ known_code c -> vs <> [] ->
  from_gerber (yield_text (c, map MNum vs)) = Ok p -> p = AUnsupported (yield_text (c, map MNum vs)).
Proof. exact unknown_code. Qed.
Print Assumptions C83_unknown.
Example C83_nine : ~ known_code 9 /\ from_gerber (yield_text (9%Z, map MNum [1])) = Ok (AUnsupported (T "9,1.0")).
Proof. split; [cbv; lia|vm_compute; reflexivity]. Qed.
