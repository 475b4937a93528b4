(** Properties of IPC-D-356 netlists. *)
From Coq Require Import Lia.
From Verif Require Import IpcSpec IpcProofs.
Open Scope nat_scope.
Open Scope list_scope.

(** C55, full statement: reading the split file and the unsplit one agrees for every [Forall well_split rs].
    False: blanks at the end of a continuation line are dropped before the next part is appended. *)
Theorem C55_continuation_refuted : exists rs, Forall well_split rs /\
  is_ok (parse_raw (file_of (flat_map split_lines rs))) = true /\
  parse_raw (file_of (flat_map split_lines rs)) <> parse_raw (file_of (map whole rs)).
Proof. exact C55_refuted_lemma. Qed.
Print Assumptions C55_continuation_refuted.

(** It holds when no continuation part ends in a blank (the part missing from the full statement). *)
Theorem C55_continuation_partial : forall rs, Forall well_split rs -> Forall tight rs ->
  parse_raw (file_of (flat_map split_lines rs)) = parse_raw (file_of (map whole rs)).
Proof. exact C55_lemma. Qed.
Print Assumptions C55_continuation_partial.

Definition c55_sample : list split_record :=
  [mkSplit (T "389BOARD_EDGE     X0Y0") [("8"%char, "9"%char, T " X10Y0"); ("8"%char, "9"%char, T " X10Y10")];
   mkSplit (T "379A B") [("7"%char, "9"%char, T " C")]].
Example C55_ex : Forall well_split c55_sample /\ Forall tight c55_sample /\
  rmap (fun n => n_stmts n) (parse_raw (file_of (flat_map split_lines c55_sample))) =
  Ok [IOutline (mkOutline (T "BOARD_EDGE") (map (in_units (mkIS false false)) [(0, 0); (10, 0); (10, 10)]%Z)); IAdjacency (T "A") [T "B"; T "C"]].
Proof.
  split; [|split; [|vm_compute; reflexivity]].
  - repeat (apply Forall_cons || apply Forall_nil);
      (split; [do 2 eexists; split; [reflexivity|discriminate]|]); (split; cbn; repeat constructor).
  - repeat (apply Forall_cons || apply Forall_nil); intros t c E; cbn [snd] in E;
      apply (f_equal (@rev ascii)) in E; rewrite rev_app_distr in E; cbn in E; injection E as <- _; reflexivity.
Qed.

(** C56, full statement: [nets_claim].  False in two ways: a net heading an adjacency record ends up with no
    adjacent nets, and a further record mentioning it raises. *)
Theorem C56_nets_refuted :
  ~ nets_claim /\
  (exists l ns n b, nets l = Ok ns /\ In (n, []) ns /\ declared l n b) /\
  (exists l, nets l = Err AttributeError).
Proof. exact C56_refuted_lemma'. Qed.
Print Assumptions C56_nets_refuted.

(** What [nets] does return: every net once; the declared adjacent nets unless the net heads a record, and then none. *)
Theorem C56_nets_partial : forall l,
  ((exists n, has_net l n /\ clash l n) -> nets l = Err AttributeError) /\
  ((forall n, has_net l n -> ~ clash l n) -> exists ns, nets l = Ok ns /\
     NoDup (map fst ns) /\ (forall n, In n (map fst ns) <-> has_net l n) /\
     (forall n adj, In (n, adj) ns -> NoDup adj /\ (heads l n -> adj = []) /\ (~ heads l n -> forall b, In b adj <-> declared l n b))).
Proof. exact C56_lemma. Qed.
Print Assumptions C56_nets_partial.

Example C56_ex :
  nets [ITest (rec_of (T "A")); ITest (rec_of (T "B")); ITest (rec_of (T "A")); ITest (rec_of (T "C"));
        IAdjacency (T "X") [T "B"; T "C"]; IAdjacency (T "A") [T "B"]] =
  Ok [(T "B", [T "X"; T "A"]); (T "A", []); (T "C", [T "X"])].
Proof. vm_compute. reflexivity. Qed.

(** C71, full statement: every record that fits the columns is read back.  False: a negative coordinate of a
    via without a pin makes the reader take the sign for the dash before the pin; radians are not
    implemented; the last digit of a record ending with Y is lost. *)
Theorem C71_columns_refuted :
  (exists c f, feature_of (co_feature c) f /\ fits_columns 6 c /\ co_pin c = [] /\ is_ok (record_from_line (record_line 6 c) (mkIS false false)) = false) /\
  (exists c, fits_columns 6 c /\ dash_found 6 c /\ record_from_line (record_line 6 c) (mkIS false true) = Err TypeError) /\
  (exists c r, fits_columns 6 c /\ dash_found 6 c /\ record_from_line (firstn 57 (record_line 6 c)) (mkIS false false) = Ok r /\
     co_y c = 200%Z /\ tr_y r = Some (units (mkIS false false) 20)).
Proof. exact C71_refuted_lemma. Qed.
Print Assumptions C71_columns_refuted.

Theorem C71_columns_partial : forall se wid c f, is_radians se = false -> feature_of (co_feature c) f -> fits_columns wid c -> dash_found wid c ->
  record_from_line (record_line wid c) se = Ok (the_record se f c).
Proof. exact C71_lemma. Qed.
Print Assumptions C71_columns_partial.

Definition c71_sample : columns :=
  mkCols "3" (T "GND") (T "U12") "-" (T "14") false None true 1 (-1200) 45000 300 80 90 2.
Example C71_ex : feature_of (co_feature c71_sample) ToolingFeature /\ fits_columns 6 c71_sample /\ dash_found 6 c71_sample /\
  record_line 6 c71_sample = T "337GND              U12   -14        PA01X-001200Y+045000X0300Y0080R090 S2".
Proof.
  split; [right; right; left; auto|]. split; [|split; [|vm_compute; reflexivity]].
  - unfold fits_columns, c71_sample. cbn [co_net co_id co_pin co_hole co_access co_x co_y co_w co_h co_rot co_mask].
    assert (TG : trimmed (T "GND")) by (apply trimmed_dec; reflexivity). assert (TV : trimmed (T "U12")) by (apply trimmed_dec; reflexivity).
    assert (TE : trimmed (T "14")) by (apply trimmed_dec; reflexivity).
    split; [cbn; lia|]. split; [cbn; lia|]. split; [cbn; lia|]. split; [exact TG|]. split; [exact TV|]. split; [exact TE|]. lia.
  - split; [cbn; lia|]. left. split; [reflexivity|]. cbn. intuition discriminate.
Qed.

(** C72: net name variables: the last definition above the record counts ... *)
Theorem C72_net_variables : forall pre n ws mid wid c f nl0,
  variable n -> Forall a_word ws -> Forall (fun l => ~ defines l n) mid -> co_net c = n ->
  Forall starts_record (pre ++ parameter_line n (spaced ws) :: mid) -> starts_record (record_line wid c) ->
  co_feature c = "1"%char \/ co_feature c = "2"%char \/ co_feature c = "6"%char ->
  feature_of (co_feature c) f -> fits_columns wid c -> dash_found wid c ->
  parse_raw (file_of ((pre ++ parameter_line n (spaced ws) :: mid) ++ [record_line wid c])) = Ok nl0 -> is_radians (n_set nl0) = false ->
  exists l, n_stmts nl0 = l ++ [ITest (set_net (spaced ws) (the_record (n_set nl0) f c))].
Proof. exact C72_names_lemma. Qed.
Print Assumptions C72_net_variables.

(** ... other names stand for themselves ... *)
Theorem C72_plain_names : forall pre wid c f nl0,
  (~ variable (co_net c) \/ Forall (fun l => ~ defines l (co_net c)) pre) ->
  Forall starts_record pre -> starts_record (record_line wid c) ->
  co_feature c = "1"%char \/ co_feature c = "2"%char \/ co_feature c = "6"%char ->
  feature_of (co_feature c) f -> fits_columns wid c -> dash_found wid c ->
  parse_raw (file_of (pre ++ [record_line wid c])) = Ok nl0 -> is_radians (n_set nl0) = false ->
  exists l, n_stmts nl0 = l ++ [ITest (the_record (n_set nl0) f c)].
Proof. exact C72_other_lemma. Qed.
Print Assumptions C72_plain_names.

(** ... and the last UNITS parameter decides the units. *)
Theorem C72_units : forall pre ws mid nl0,
  Forall a_word ws -> Forall (fun l => ~ defines l (T "UNITS")) mid ->
  Forall starts_record (pre ++ parameter_line (T "UNITS") (spaced ws) :: mid) ->
  parse_raw (file_of (pre ++ parameter_line (T "UNITS") (spaced ws) :: mid)) = Ok nl0 ->
  (ws = [T "CUST"] \/ ws = [T "CUST"; T "0"] -> is_metric (n_set nl0) = false /\ is_radians (n_set nl0) = false) /\
  (ws = [T "CUST"; T "1"] -> is_metric (n_set nl0) = true /\ is_radians (n_set nl0) = false) /\
  (ws = [T "CUST"; T "2"] -> is_metric (n_set nl0) = false /\ is_radians (n_set nl0) = true).
Proof. exact C72_units_lemma. Qed.
Print Assumptions C72_units.

Theorem C72_units_default : forall ls nl0, Forall (fun l => ~ defines l (T "UNITS")) ls -> Forall starts_record ls ->
  parse_raw (file_of ls) = Ok nl0 -> is_metric (n_set nl0) = false /\ is_radians (n_set nl0) = false.
Proof. exact C72_default_lemma. Qed.
Print Assumptions C72_units_default.

Example C72_ex :
  rmap (fun n => (n_set n, map tr_net (test_records (n_stmts n)), map (fun r => option_map this (tr_x r)) (test_records (n_stmts n))))
    (parse_raw (file_of [parameter_line (T "NNAME1") (T "A_LONG_NET"); record_line 6 (mkCols "1" (T "NNAME1") (T "U1") "-" (T "1") false None true 1 20000 0 0 0 0 0);
       parameter_line (T "UNITS") (T "CUST 1"); parameter_line (T "NNAME1") (T "OTHER NET");
       record_line 6 (mkCols "1" (T "NNAME1") (T "U1") "-" (T "1") false None true 1 20000 0 0 0 0 0)])) =
  Ok (mkIS true false, [T "A_LONG_NET"; T "OTHER NET"], [Some 2%Q; Some 20%Q]).
Proof. vm_compute. reflexivity. Qed.
Example C72_ex_hyps : variable (T "NNAME1") /\ Forall a_word [T "OTHER"; T "NET"] /\
  spaced [T "OTHER"; T "NET"] = T "OTHER NET" /\ ~ defines (parameter_line (T "UNITS") (T "CUST 1")) (T "NNAME1") /\
  starts_record (parameter_line (T "UNITS") (T "CUST 1")).
Proof.
  split; [exists (T "1"); repeat split; discriminate|].
  split; [repeat (apply Forall_cons || apply Forall_nil); (split; [discriminate|cbn; repeat constructor])|].
  split; [reflexivity|]. split.
  - intros (c & b & r & E & Fb & _). injection E as -> E. destruct b as [|x [|y b]].
    + discriminate E.
    + injection E as <- E. discriminate E.
    + injection E as <- <- E. inversion Fb as [|? ? _ Fb']; subst. inversion Fb'; subst. discriminate.
  - split; [cbn; repeat constructor|]. do 2 eexists. split; [reflexivity|discriminate].
Qed.

(** C73: outlines and conductors: a missing coordinate repeats the one before, starting at the origin,
    and the numbers are scaled. *)
Theorem C73_outline_partial : forall se ty cs, Forall is_coord cs -> ty = [] \/ a_word ty -> List.length ty <= 14 ->
  outline_from_line (outline_line ty cs) se = Ok (mkOutline ty (map (in_units se) (path 0 0 cs))).
Proof. exact C73_outline_lemma. Qed.
Print Assumptions C73_outline_partial.

Theorem C73_conductor_partial : forall se net layer ap shapes,
  trimmed net -> List.length net <= 14 -> (0 <= layer < 100)%Z -> is_coord ap -> shapes <> [] -> Forall (fun s => s <> [] /\ Forall is_coord s) shapes ->
  conductor_from_line (conductor_line net layer ap shapes) se =
  Ok (mkConductor net layer (option_map (units se) (fst ap), option_map (units se) (snd ap))
        (map (fun s => map (in_units se) (path 0 0 s)) shapes)).
Proof. exact C73_conductor_lemma. Qed.
Print Assumptions C73_conductor_partial.

(** Missing from the two above: negative coordinates ([is_coord] asks for numbers >= 0).  They are ignored. *)
Theorem C73_negative_refuted : exists se a b,
  (forall w, In w [a; b] -> a_word w) /\ a = T "X-100Y0" /\ b = T "X100Y0" /\
  outline_from_line (T "389" ++ pad 14 (T "BOARD_EDGE") ++ T " " ++ spaced [a; b]) se =
    Ok (mkOutline (T "BOARD_EDGE") (map (in_units se) [(0, 0); (100, 0)]%Z)) /\
  ~ (exists o, outline_from_line (T "389" ++ pad 14 (T "BOARD_EDGE") ++ T " " ++ spaced [a; b]) se = Ok o /\
       ol_points o = map (in_units se) [(-100, 0); (100, 0)]%Z).
Proof. exact C73_refuted_lemma. Qed.
Print Assumptions C73_negative_refuted.

Example C73_ex :
  Forall is_coord [(Some 0, Some 0); (Some 20000, None); (None, Some 10000)]%Z /\
  outline_line (T "BOARD_EDGE") [(Some 0, Some 0); (Some 20000, None); (None, Some 10000)]%Z = T "389BOARD_EDGE     X0Y0 X20000 Y10000" /\
  map (fun p => let q := in_units (mkIS false false) p in (this (fst q), this (snd q))) (path 0 0 [(Some 0, Some 0); (Some 20000, None); (None, Some 10000)]%Z) = [(0, 0); (2, 0); (2, 1)]%Q /\
  conductor_line (T "GND") 2 (Some 100, None)%Z [[(Some 0, Some 0); (Some 5, None)]; [(None, Some 7)]]%Z =
    T "378GND            L02 X100 X0Y0 X5*Y7".
Proof.
  split; [repeat (apply Forall_cons || apply Forall_nil); unfold is_coord; cbn; (split; [lia|split; [lia|]]); (left + right); discriminate|].
  repeat split; vm_compute; reflexivity.
Qed.

(** C74: rendering a side passes on exactly the test points that can be reached from it ... *)
Theorem C74_render : forall data nl0 side x y net a, parse_raw data = Ok nl0 ->
  (In ((x, y), net, a) (render side nl0) <->
   exists r, In (ITest r) (n_stmts nl0) /\ tr_x r = Some x /\ tr_y r = Some y /\ tr_net r = net /\ tr_access r = Some a /\ visible side a).
Proof. exact C74_render_lemma. Qed.
Print Assumptions C74_render.

(** ... and components are listed once each, vias every time. *)
Theorem C74_components : forall l, NoDup (components l) /\
  (forall i, In i (components l) <-> i <> T "VIA" /\ exists r, In (ITest r) l /\ tr_id r = i).
Proof. exact C74_components_lemma. Qed.
Print Assumptions C74_components.

Theorem C74_vias : forall l, List.length (vias l) =
  list_sum (map (fun s => match s with ITest r => if list_eq_dec ascii_dec (tr_id r) (T "VIA") then 1 else 0 | _ => 0 end) l).
Proof. exact C74_vias_lemma. Qed.
Print Assumptions C74_vias.

Example C74_ex :
  rmap (fun n => (components (n_stmts n), List.length (vias (n_stmts n)), map (fun p => snd (fst p)) (render RTop n), map (fun p => snd (fst p)) (render RBottom n)))
    (parse_raw (file_of (map (record_line 6)
      [mkCols "1" (T "A") (T "VIA") " " [] true (Some 118%Z) true 0 100 200 0 0 0 0; mkCols "1" (T "B") (T "VIA") " " [] true (Some 118%Z) true 8 100 200 0 0 0 0;
       mkCols "2" (T "C") (T "U1") "-" (T "1") false None true 1 100 200 0 0 0 0; mkCols "2" (T "D") (T "U1") "-" (T "2") false None true 1 100 200 0 0 0 0]))) =
  Ok ([T "U1"], 2, [T "A"; T "C"; T "D"], [T "A"; T "B"]).
Proof. vm_compute. reflexivity. Qed.
