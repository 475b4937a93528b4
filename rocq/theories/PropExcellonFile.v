(** Properties of drill files: writing and changing. *)
From Verif Require Import PyBase QcLib NumModel NumSpec NumProofs FmtModel GerberText ExcellonModel ExcellonFile ExcellonSpec ExcellonProofs ExcellonRun DecimalProofs ExcellonMore PropExcellon.
From Coq Require Import Permutation.
Open Scope list_scope.
Open Scope Qc_scope.

(** ** C40 *)
(** The full statement is false: a zero delta of a repeat statement is not written, and a
    compensation index does not survive with tool numbers of three digits. *)
Theorem C40_zero_delta_refuted : exists t, write_stmt x_default [] (ERepeat 3 (Some 0) (Some 1), Inch) = Ok t /\
  exists y, read_repeat x_default t = Ok (3%Z, None, y).
Proof. eexists. split; [vm_compute; reflexivity|]. eexists. vm_compute. reflexivity. Qed.
Print Assumptions C40_zero_delta_refuted.
Theorem C40_three_digits_refuted : exists t, write_stmt x_default [] (ESel 123 (Some 4%Z), Inch) = Ok ("T"%char :: t) /\ read_sel t = Ok (12%Z, Some 304%Z).
Proof. eexists. split; vm_compute; reflexivity. Qed.
Print Assumptions C40_three_digits_refuted.
Theorem C40_coordinate_partial : forall i d se s u x y,
  usable_format i d -> xs_format se = (i, d) -> grid_opt i d x -> grid_opt i d y -> (x <> None \/ y <> None) ->
  exists t, write_stmt se s (ECoord None x y, u) = Ok t /\ read_xy se t = Ok (x, y).
Proof. exact C40_coordinate_lemma. Qed.
Print Assumptions C40_coordinate_partial.
(** An end coordinate left out is read as the start coordinate. *)
Theorem C40_slot_partial : forall i d se s u xs ys xe ye, usable_format i d -> xs_format se = (i, d) ->
  grid_opt i d xs -> grid_opt i d ys -> grid_opt i d xe -> grid_opt i d ye -> (xs <> None \/ ys <> None) -> (xe <> None \/ ye <> None) ->
  exists t, write_stmt se s (ESlot xs ys xe ye, u) = Ok t /\
    read_slot se t = Ok (xs, ys, match xe with Some _ => xe | None => xs end, match ye with Some _ => ye | None => ys end).
Proof. exact C40_slot_lemma. Qed.
Print Assumptions C40_slot_partial.
Theorem C40_repeat_partial : forall i d se s u n x y, usable_format i d -> xs_format se = (i, d) -> (0 <= n)%Z -> grid_opt i d x -> grid_opt i d y ->
  x <> Some 0 -> y <> Some 0 ->
  exists t, write_stmt se s (ERepeat n x y, u) = Ok t /\ read_repeat se t = Ok (n, x, y).
Proof. exact C40_repeat_lemma. Qed.
Print Assumptions C40_repeat_partial.
(** The reader gets a tool line without its T (excellon.py:649). *)
Theorem C40_selection_partial : forall se s u n, (0 <= n < 1000)%Z ->
  exists t, write_stmt se s (ESel n None, u) = Ok ("T"%char :: t) /\ read_sel t = Ok (n, None).
Proof. exact C40_selection_lemma. Qed.
Print Assumptions C40_selection_partial.
Theorem C40_compensation_partial : forall se s u n c, (0 <= n < 100)%Z -> (0 <= c)%Z ->
  exists t, write_stmt se s (ESel n (Some c), u) = Ok ("T"%char :: t) /\ read_sel t = Ok (n, Some c).
Proof. exact C40_selection_comp_lemma. Qed.
Print Assumptions C40_compensation_partial.
Example C40_ex : usable_format 2 4 /\ grid_opt 2 4 (Some (grid (-12345) 4)) /\ grid_opt 2 4 None /\
  write_stmt x_default [] (ESlot (Some (grid (-12345) 4)) (Some (grid 5000 4)) (Some (grid 1 4)) None, Inch) = Ok (T "X-012345Y005G85X000001") /\
  write_stmt x_default [] (ERepeat 4 None (Some (grid 5000 4)), Inch) = Ok (T "R4Y005") /\
  write_stmt x_default [] (ESel 7 (Some 3%Z), Inch) = Ok (T "T0703").
Proof.
  split; [unfold usable_format; lia|]. split; [exists (-12345)%Z; split; [reflexivity|reflexivity]|]. split; [exact Logic.I|]. vm_compute. auto.
Qed.

(** ** C41 *)
(** The full statement is false: incremental mode set in the header is written again, before
    absolute positions; the format of the unit line is not written. *)
Definition rewritten (se : xset) (data : text) : list (list Q) * list (list Q) :=
  match parse_raw no_comment_tool se [] data with
  | Ok f => (views (Ok f), match write_file f with Ok t => views (parse_raw no_comment_tool se [] t) | Err _ => [] end)
  | Err _ => ([], [])
  end.
Theorem C41_incremental_header_refuted : exists data,
  rewritten x_default data = ([[1 # 1; 1 # 10; 1 # 1; 1 # 1]; [1 # 1; 1 # 10; 2 # 1; 1 # 1]], [[1 # 1; 1 # 10; 1 # 1; 1 # 1]; [1 # 1; 1 # 10; 3 # 1; 2 # 1]])%Q.
Proof. exists (file_text [nl] (map T ["M48"; "INCH,LZ"; "ICI,ON"; "T1C.1"; "%"; "T1"; "X01Y01"; "X01"; "M30"]%string)). vm_compute. reflexivity. Qed.
Print Assumptions C41_incremental_header_refuted.
Theorem C41_format_lost_refuted : exists data a b, rewritten x_default data = ([[1 # 1; 1 # 10; a; a]], [[1 # 1; 1 # 10; b; b]])%Q /\ (b == a / 10)%Q /\ ~ (a == b)%Q.
Proof.
  exists (file_text [nl] (map T ["M48"; "METRIC,LZ,000.000"; "T1C.1"; "%"; "T1"; "X001Y001"; "M30"]%string)). eexists _, _. split; [vm_compute; reflexivity|].
  split; [reflexivity|intros H; discriminate].
Qed.
Print Assumptions C41_format_lost_refuted.
(** What holds: with the settings of the file given to the reader, a file in absolute mode whose header
    consists of units and tool definitions. *)
Theorem C41_write_read_partial : forall holesize f i d locs, usable_format i d -> xs_format (xf_set f) = (i, d) -> xs_notation (xf_set f) = Absolute ->
  plain_header f locs -> same_units f -> Permutation locs (map snd (xf_tools f)) -> NoDup (map fst (xf_tools f)) ->
  (forall n l, In (n, l) (xf_tools f) -> exists t, nth_error (xf_store f) l = Some t /\ t_num t = n /\ writable_tool i d t) ->
  Forall (drill_hit f i d) (xf_hits f) ->
  exists text f', write_file f = Ok text /\ parse_raw holesize (xf_set f) [] text = Ok f' /\
    (xs_units (xf_set f') = xs_units (xf_set f) /\ xs_format (xf_set f') = xs_format (xf_set f) /\ xs_zeros (xf_set f') = xs_zeros (xf_set f)) /\
    (forall h, In h (xf_hits f') -> hole_view (xf_store f') h <> None) /\
    forall n, filter (by_tool n) (map (hole_view (xf_store f')) (xf_hits f')) = filter (by_tool n) (map (hole_view (xf_store f)) (xf_hits f)).
Proof. exact C41_lemma. Qed.
Print Assumptions C41_write_read_partial.
(** A file meeting the hypotheses, the one read from a text of two tools used alternately. *)
Definition two_tools : text := file_text [nl] (map T ["M48"; "INCH,LZ"; "T1C0.024"; "T02F2C.125"; "%"; "T1"; "X01Y02"; "T02"; "X03"; "T1"; "Y-005"; "M30"]%string).
Example C41_ex : exists f, parse_raw no_comment_tool x_default [] two_tools = Ok f /\
  usable_format 2 4 /\ xs_format (xf_set f) = (2, 4)%nat /\ xs_notation (xf_set f) = Absolute /\ plain_header f [0; 1]%nat /\ same_units f /\
  Permutation [0; 1]%nat (map snd (xf_tools f)) /\ NoDup (map fst (xf_tools f)) /\
  (forall n l, In (n, l) (xf_tools f) -> exists t, nth_error (xf_store f) l = Some t /\ t_num t = n /\ writable_tool 2 4 t) /\
  Forall (drill_hit f 2 4) (xf_hits f) /\ List.length (xf_hits f) = 3%nat.
Proof.
  eexists. split; [vm_compute; reflexivity|]. split; [unfold usable_format; lia|]. split; [reflexivity|]. split; [reflexivity|].
  split; [eexists None, ERewind, _; split; [reflexivity|]; split; [now left|exact Logic.I]|].
  split; [intros s u I; cbn in I; repeat (destruct I as [I|I]; [injection I as <- <-; reflexivity|]); destruct I|].
  split; [apply Permutation_refl|]. split; [repeat constructor; cbn; intuition discriminate|].
  assert (G : forall i d v k, (Z.abs k < 10 ^ Z.of_nat (i + d))%Z -> v = grid k d -> grid_value i d v) by (intros i d v k A B; exists k; auto).
  split; [|split; [|reflexivity]].
  - intros n l I. cbn in I. destruct I as [I|[I|[]]]; injection I as <- <-; eexists; (split; [reflexivity|]); (split; [reflexivity|]).
    + split; [cbn; lia|]. cbn. repeat (split; [exact Logic.I|]). exists 240%Z. split; [reflexivity|]. split; [apply qc_eq_iff; vm_compute; reflexivity|right; vm_compute; discriminate].
    + split; [cbn; lia|]. cbn. split; [exact Logic.I|]. split; [apply (G 2%nat 4%nat _ 200000%Z); [reflexivity|apply qc_eq_iff; vm_compute; reflexivity]|].
      repeat (split; [exact Logic.I|]). exists 1250%Z. split; [reflexivity|]. split; [apply qc_eq_iff; vm_compute; reflexivity|right; vm_compute; discriminate].
  - repeat constructor.
    + exists 1%Z, 0%nat. do 2 eexists. split; [reflexivity|]. split; [now left|]. split; [apply (G _ _ _ 10000%Z)|apply (G _ _ _ 20000%Z)]; try reflexivity; apply qc_eq_iff; vm_compute; reflexivity.
    + exists 2%Z, 1%nat. do 2 eexists. split; [reflexivity|]. split; [right; now left|]. split; [apply (G _ _ _ 30000%Z)|apply (G _ _ _ 20000%Z)]; try reflexivity; apply qc_eq_iff; vm_compute; reflexivity.
    + exists 1%Z, 0%nat. do 2 eexists. split; [reflexivity|]. split; [now left|]. split; [apply (G _ _ _ 30000%Z)|apply (G _ _ _ (-5000)%Z)]; try reflexivity; apply qc_eq_iff; vm_compute; reflexivity.
Qed.
Example C41_ex_value : rewritten x_default two_tools =
  ([[1 # 1; 3 # 125; 1 # 1; 2 # 1]; [2 # 1; 1 # 8; 3 # 1; 2 # 1]; [1 # 1; 3 # 125; 3 # 1; -1 # 2]],
   [[1 # 1; 3 # 125; 1 # 1; 2 # 1]; [1 # 1; 3 # 125; 3 # 1; -1 # 2]; [2 # 1; 1 # 8; 3 # 1; 2 # 1]])%Q.
Proof. vm_compute. reflexivity. Qed.

(** ** C42 *)
(** The full statement is false: the hits are left in the old units, in both directions, while the
    tool diameters are converted. *)
Theorem C42_hits_refuted :
  (exists data f f', parse_raw no_comment_tool x_default [] data = Ok f /\ convert Metric f = Ok f' /\
     views (Ok f) = [[1 # 1; 1 # 10; 1 # 1; 2 # 1]]%Q /\ views (Ok f') = [[1 # 1; 127 # 50; 1 # 1; 2 # 1]]%Q) /\
  (exists data f f', parse_raw no_comment_tool x_default [] data = Ok f /\ convert Inch f = Ok f' /\
     views (Ok f) = [[1 # 1; 127 # 50; 1 # 1; 2 # 1]]%Q /\ views (Ok f') = [[1 # 1; 1 # 10; 1 # 1; 2 # 1]]%Q).
Proof.
  split.
  - exists (file_text [nl] (map T ["M48"; "INCH,LZ"; "T1C.1"; "%"; "T1"; "X01Y02"; "M30"]%string)). do 2 eexists. split; [vm_compute; reflexivity|]. split; [vm_compute; reflexivity|]. split; vm_compute; reflexivity.
  - exists (file_text [nl] (map T ["M48"; "METRIC,LZ"; "T1C2.54"; "%"; "T1"; "X01Y02"; "M30"]%string)). do 2 eexists. split; [vm_compute; reflexivity|]. split; [vm_compute; reflexivity|]. split; vm_compute; reflexivity.
Qed.
Print Assumptions C42_hits_refuted.
(** What holds of files in one unit whose hits use tools of the file: tools (each object once, however
    often it is mentioned) and statements are converted, a second conversion does nothing, and
    converting back restores the file.  Missing: the hits, which keep their numbers. *)
Theorem C42_conversion_partial : forall u f, consistent f -> xs_units (xf_set f) <> u ->
  exists f', convert u f = Ok f' /\
    xf_set f' = mkXset u (xs_format (xf_set f)) (xs_zeros (xf_set f)) (xs_notation (xf_set f)) /\
    xf_tools f' = xf_tools f /\
    (forall l t, listed f l -> nth_error (xf_store f) l = Some t -> exists t', nth_error (xf_store f') l = Some t' /\ rescaled_tool u t t') /\
    map fst (xf_stmts f') = map (rescaled_stmt u) (map fst (xf_stmts f)) /\
    xf_hits f' = xf_hits f /\
    convert u f' = Ok f' /\
    convert (xs_units (xf_set f)) f' = Ok f.
Proof. exact C42_lemma. Qed.
Print Assumptions C42_conversion_partial.
Example C42_ex : exists f, parse_raw no_comment_tool x_default [] two_tools = Ok f /\ consistent f /\ xs_units (xf_set f) <> Metric.
Proof.
  eexists. split; [vm_compute; reflexivity|]. split; [|discriminate]. split; [|split].
  - intros s u I; cbn in I; repeat (destruct I as [I|I]; [injection I as <- <-; reflexivity|]); destruct I.
  - intros l t _ G. destruct l as [|[|l]]; cbn in G; [injection G as <-; reflexivity|injection G as <-; reflexivity|destruct l; discriminate].
  - intros h I. cbn in I. destruct I as [<-|[<-|[<-|[]]]]; (eexists _, _; split; [reflexivity|]; split; [reflexivity|]; left; eexists; cbn; auto).
Qed.

(** ** C43 *)
(** The full statement is false: a slot whose start leaves out a coordinate makes offset fail. *)
Theorem C43_open_slot_refuted : exists data f, parse_raw no_comment_tool x_default [] data = Ok f /\ List.length (xf_hits f) = 2%nat /\
  forall dx dy, offset dx dy f = Err TypeError.
Proof.
  exists (file_text [nl] (map T ["M48"; "INCH,LZ"; "T1C.1"; "%"; "T1"; "X01Y02"; "X02G85X03"; "M30"]%string)). eexists. split; [vm_compute; reflexivity|]. split; [reflexivity|].
  intros dx dy. reflexivity.
Qed.
Print Assumptions C43_open_slot_refuted.
(** What holds of files whose slots are complete. *)
Theorem C43_offset_partial : forall dx dy f, complete_hits f ->
  exists f', offset dx dy f = Ok f' /\
    xf_hits f' = map (moved_hit dx dy) (xf_hits f) /\
    xf_set f' = xf_set f /\ xf_tools f' = xf_tools f /\ xf_store f' = xf_store f /\
    (forall dx2 dy2, offset dx2 dy2 f' = offset (dx + dx2) (dy + dy2) f) /\
    offset (- dx) (- dy) f' = Ok f.
Proof. exact C43_lemma. Qed.
Print Assumptions C43_offset_partial.
Definition with_slot : text := file_text [nl] (map T ["M48"; "INCH,LZ"; "T1C.1"; "T2C.2"; "%"; "T1"; "X01Y02"; "T2"; "X01Y04G85X03Y01"; "X05"; "T1"; "X09Y02"; "M30"]%string).
Example C43_ex : exists f, parse_raw no_comment_tool x_default [] with_slot = Ok f /\ complete_hits f /\ List.length (xf_hits f) = 4%nat.
Proof.
  eexists. split; [vm_compute; reflexivity|]. split; [|reflexivity]. intros h I. cbn in I.
  destruct I as [<-|[<-|[<-|[<-|[]]]]]; (split; [discriminate|]); try exact Logic.I. repeat split; discriminate.
Qed.

(** ** C44 *)
(** The full statement is false: with a slot in the file there is no path length, for any tool. *)
Theorem C44_slot_refuted : exists f, parse_raw no_comment_tool x_default [] with_slot = Ok f /\
  forall D zero add dist n, path_length D zero add dist f n = Err AttributeError.
Proof. eexists. split; [vm_compute; reflexivity|]. intros. reflexivity. Qed.
Print Assumptions C44_slot_refuted.
(** What holds of files of drill hits, for any type of lengths and any distance. *)
Theorem C44_path_partial : forall D (zero : D) add dist f n,
  (forall h, In h (xf_hits f) -> tool_of (xf_store f) h <> None /\ match h with Hit _ _ => True | _ => False end) ->
  path_length D zero add dist f n =
  Ok (match stops (xf_store f) n (xf_hits f) with [] => None | ps => Some (polyline add dist zero (0, 0) ps) end).
Proof. exact @C44_lemma. Qed.
Print Assumptions C44_path_partial.
Example C44_ex : exists f, parse_raw no_comment_tool x_default [] two_tools = Ok f /\
  (forall h, In h (xf_hits f) -> tool_of (xf_store f) h <> None /\ match h with Hit _ _ => True | _ => False end) /\
  let manhattan (p q : point) := qcmax (fst p - fst q) (fst q - fst p) + qcmax (snd p - snd q) (snd q - snd p) in
  match path_length Qc 0 Qcplus manhattan f 1, path_length Qc 0 Qcplus manhattan f 3 with
  | Ok (Some a), Ok None => this a = (15 # 2)%Q
  | _, _ => False
  end.
Proof.
  eexists. split; [vm_compute; reflexivity|]. split; [|vm_compute; reflexivity].
  intros h I. cbn in I. destruct I as [<-|[<-|[<-|[]]]]; (split; [discriminate|exact Logic.I]).
Qed.

(** ** C45 *)
Theorem C45_update : forall n u f l t,
  (forall h, In h (xf_hits f) -> tool_of (xf_store f) h <> None) ->
  dget n (xf_tools f) = Some l -> nth_error (xf_store f) l = Some t -> t_num t = n ->
  exists f', update_tool n u f = Ok f' /\
    nth_error (xf_store f') l = Some (mkTool n (replaced (u_retract u) (t_retract t)) (replaced (u_feed u) (t_feed t)) (replaced (u_maxhit u) (t_maxhit t))
      (replaced (u_rpm u) (t_rpm t)) (replaced (u_diam u) (t_diam t)) (replaced (u_depth u) (t_depth t)) (t_plated t) (t_hits t) (t_set t)) /\
    (forall k, k <> l -> nth_error (xf_store f') k = nth_error (xf_store f) k) /\
    xf_set f' = xf_set f /\ xf_stmts f' = xf_stmts f /\ xf_tools f' = xf_tools f /\
    Forall2 (fun h h' =>
      match h, h' with
      | Hit o p, Hit o' p' => p' = p /\ (if Z.eqb (match tool_of (xf_store f) h with Some t => t_num t | None => 0 end) n then o' = Some l else o' = o)
      | Slot o a b r, Slot o' a' b' r' => a' = a /\ b' = b /\ r' = r /\ (if Z.eqb (match tool_of (xf_store f) h with Some t => t_num t | None => 0 end) n then o' = Some l else o' = o)
      | _, _ => False
      end) (xf_hits f) (xf_hits f').
Proof. exact C45_lemma. Qed.
Print Assumptions C45_update.
Example C45_ex : exists f t f', parse_raw no_comment_tool x_default [] two_tools = Ok f /\
  (forall h, In h (xf_hits f) -> tool_of (xf_store f) h <> None) /\ dget 2 (xf_tools f) = Some 1%nat /\ nth_error (xf_store f) 1 = Some t /\ t_num t = 2%Z /\
  update_tool 2 (mkUpdate None None None (Some (grid 2 1)) None None) f = Ok f' /\
  views (Ok f') = [[1 # 1; 3 # 125; 1 # 1; 2 # 1]; [2 # 1; 1 # 5; 3 # 1; 2 # 1]; [1 # 1; 3 # 125; 3 # 1; -1 # 2]]%Q.
Proof.
  eexists _, _, _. split; [vm_compute; reflexivity|]. split; [intros h I; cbn in I; destruct I as [<-|[<-|[<-|[]]]]; discriminate|].
  split; [reflexivity|]. split; [reflexivity|]. split; [reflexivity|]. split; [vm_compute; reflexivity|vm_compute; reflexivity].
Qed.

(** ** C64 *)
(** The full statement is false: small values are printed in scientific notation. *)
Theorem C64_scientific_refuted : decimal_string (grid 1 5) 6 false = T "1e-05.0".
Proof. vm_compute. reflexivity. Qed.
Print Assumptions C64_scientific_refuted.
Theorem C64_decimal_partial : forall k d precision (padding : bool), (Z.abs k < 10 ^ 10)%Z -> (d <= precision)%nat ->
  (k = 0%Z \/ (10 ^ Z.of_nat d <= 10 ^ 4 * Z.abs k)%Z) ->
  exists a b, decimal_string (grid k d) precision padding = (if (k <? 0)%Z then T "-" else []) ++ a ++ T "." ++ b /\
    digit_string a /\ a <> [] /\ digit_string b /\ grid (int_of (a ++ b)) (List.length b) = grid (Z.abs k) d /\
    (List.length b <= precision)%nat /\ (padding = true -> List.length b = precision) /\ ((1 <= precision)%nat -> b <> []).
Proof. exact C64_lemma. Qed.
Print Assumptions C64_decimal_partial.
Example C64_ex : decimal_string (grid (-12345) 3) 6 true = T "-12.345000" /\ decimal_string (grid 1250 3) 6 false = T "1.25" /\ (Z.abs (-12345) < 10 ^ 10)%Z /\ (10 ^ Z.of_nat 3 <= 10 ^ 4 * Z.abs (-12345))%Z.
Proof. repeat split; vm_compute; congruence. Qed.

(** ** C65 *)
Theorem C65_bounding_box : forall f, drillable f -> xf_hits f <> [] ->
  exists b, bounding_box f = Ok b /\
    (forall h q, In h (xf_hits f) -> removes (xf_store f) h q -> inside b q) /\
    touched (fun q => exists h, In h (xf_hits f) /\ removes (xf_store f) h q) b.
Proof. exact C65_lemma. Qed.
Print Assumptions C65_bounding_box.
Example C65_ex : exists f, parse_raw no_comment_tool x_default [] with_slot = Ok f /\ drillable f /\ List.length (xf_hits f) = 4%nat /\
  match bounding_box f with Ok b => [this (fst (fst b)); this (snd (fst b)); this (fst (snd b)); this (snd (snd b))] = [9 # 10; 181 # 20; 9 # 10; 41 # 10]%Q | Err _ => False end.
Proof.
  eexists. split; [vm_compute; reflexivity|].
  match goal with |- drillable ?f /\ _ => set (f0 := f) end.
  assert (DM : forall h t, In h (xf_hits f0) -> tool_of (xf_store f0) h = Some t -> exists d, t_diam t = Some d /\ 0 <= d).
  { intros h t I E. unfold f0 in *. cbn in I. destruct I as [<-|[<-|[<-|[<-|[]]]]]; injection E as <-; eexists; (split; [reflexivity|]); unfold Qcle, Qle; cbn; lia. }
  assert (C : complete_hits f0).
  { intros h I. unfold f0 in *. cbn in I. destruct I as [<-|[<-|[<-|[<-|[]]]]]; (split; [cbn; discriminate|]); try exact Logic.I. repeat split; discriminate. }
  split; [|split; [reflexivity|vm_compute; reflexivity]]. split; [exact C|]. split; [exact DM|].
  intros h q I R. destruct (C h I) as [T1 T2]. destruct (tool_of (xf_store f0) h) as [t|] eqn:Et; [|contradiction]. destruct (DM h t I Et) as (d & Ed & Pd).
  destruct (hit_box_ok _ _ t d Et Ed Pd T2) as (b & Eb & IN & _). destruct (IN q R) as (A1 & A2 & A3 & A4).
  assert (B : - zq (10 ^ 11) <= fst (fst b) /\ snd (fst b) <= zq (10 ^ 11) /\ - zq (10 ^ 11) <= fst (snd b) /\ snd (snd b) <= zq (10 ^ 11)).
  { clear -I Eb. unfold f0 in *. cbn in I. destruct I as [<-|[<-|[<-|[<-|[]]]]]; apply ok_inj in Eb; subst b; repeat split; (unfold Qcle, Qle; vm_compute; discriminate). }
  destruct B as (B1 & B2 & B3 & B4).
  split; [exact (Qcle_trans _ _ _ B1 A1)|]. split; [exact (Qcle_trans _ _ _ A2 B2)|]. split; [exact (Qcle_trans _ _ _ B3 A3)|exact (Qcle_trans _ _ _ A4 B4)].
Qed.
