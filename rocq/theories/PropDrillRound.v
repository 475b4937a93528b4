(** Properties of drill files written in a number format that does not hold their numbers exactly. *)
From Verif Require Import PyBase QcLib NumModel NumSpec GerberText ExcellonModel ExcellonFile ExcellonSpec RoundSpec DrillRoundSpec DrillRoundFile PropExcellon PropExcellonFile.
From Coq Require Import Permutation.
Open Scope list_scope.
Open Scope Qc_scope.

(** ** C133 *)
(** The full statement is false: a diameter below 1/10000 is written with an exponent in front of a
    decimal point, and the file cannot be read. *)
Definition tiny_tool : text := file_text [nl] (map T ["M48"; "INCH,LZ"; "T1C.00005"; "%"; "T1"; "X01Y02"; "M30"]%string).
Theorem C133_tiny_diameter_refuted : exists f text, parse_raw no_comment_tool x_default [] tiny_tool = Ok f /\ write_file f = Ok text /\
  text = file_text [nl] (map T ["M48"; "INCH,LZ"; "T01C5e-05.0000"; "%"; "T01"; "X01Y02"; "M30"]%string) /\
  parse_raw no_comment_tool (xf_set f) [] text = Err ValueError.
Proof. do 2 eexists. split; [vm_compute; reflexivity|]. split; [vm_compute; reflexivity|]. split; vm_compute; reflexivity. Qed.
Print Assumptions C133_tiny_diameter_refuted.
(** What holds: for every file in absolute mode with a plain header whose numbers are in the range of
    the format, on its grid or not, the holes of every tool come back in order, within half a unit of
    the last decimal place, with a diameter within one unit (diameters are cut off, not rounded), and
    the units, format and zero suppression are the ones of the file. *)
Theorem C133_resolution_partial : forall holesize f i d locs, usable_format i d -> xs_format (xf_set f) = (i, d) -> xs_notation (xf_set f) = Absolute ->
  plain_header f locs -> same_units f -> Permutation locs (map snd (xf_tools f)) -> NoDup (map fst (xf_tools f)) ->
  (forall n l, In (n, l) (xf_tools f) -> exists t, nth_error (xf_store f) l = Some t /\ t_num t = n /\ tool_in_range i d t) ->
  Forall (hit_in_range f i d) (xf_hits f) ->
  exists text f', write_file f = Ok text /\ parse_raw holesize (xf_set f) [] text = Ok f' /\
    (xs_units (xf_set f') = xs_units (xf_set f) /\ xs_format (xf_set f') = xs_format (xf_set f) /\ xs_zeros (xf_set f') = xs_zeros (xf_set f)) /\
    (forall h, In h (xf_hits f') -> hole_view (xf_store f') h <> None) /\
    forall n, Forall2 (near_hole d) (filter (by_tool n) (map (hole_view (xf_store f)) (xf_hits f))) (filter (by_tool n) (map (hole_view (xf_store f')) (xf_hits f'))).
Proof. exact C133_lemma. Qed.
Print Assumptions C133_resolution_partial.
(** A file whose diameters have too many decimals, moved by 1/30000 and 1/70000: none of its numbers
    is a multiple of 1/10000. *)
Definition fine_tools : text := file_text [nl] (map T ["M48"; "INCH,LZ"; "T1C.02407"; "T2C.1256789S12.345"; "%"; "T1"; "X01Y02"; "T2"; "X03"; "M30"]%string).
Definition fine_file : res xfile := do f <- parse_raw no_comment_tool x_default [] fine_tools; offset (Q2Qc (1 # 30000)) (Q2Qc (1 # 70000)) f.
Example C133_ex : exists f, fine_file = Ok f /\
  usable_format 2 4 /\ xs_format (xf_set f) = (2, 4)%nat /\ xs_notation (xf_set f) = Absolute /\ plain_header f [0; 1]%nat /\ same_units f /\
  Permutation [0; 1]%nat (map snd (xf_tools f)) /\ NoDup (map fst (xf_tools f)) /\
  (forall n l, In (n, l) (xf_tools f) -> exists t, nth_error (xf_store f) l = Some t /\ t_num t = n /\ tool_in_range 2 4 t) /\
  Forall (hit_in_range f 2 4) (xf_hits f) /\ List.length (xf_hits f) = 2%nat.
Proof.
  eexists. split; [vm_compute; reflexivity|]. split; [unfold usable_format; lia|]. split; [reflexivity|]. split; [reflexivity|].
  split; [eexists None, ERewind, _; split; [reflexivity|]; split; [now left|exact Logic.I]|].
  split; [intros s u I; cbn in I; repeat (destruct I as [I|I]; [injection I as <- <-; reflexivity|]); destruct I|].
  split; [apply Permutation_refl|]. split; [repeat constructor; cbn; intuition discriminate|].
  split; [|split; [|reflexivity]].
  - intros n l I. cbn in I. destruct I as [I|[I|[]]]; injection I as <- <-; eexists; (split; [reflexivity|]); (split; [reflexivity|]); (split; [cbn; lia|]); cbn; repeat (split; [exact Logic.I|]).
    + right. split; vm_compute; discriminate.
    + split; [split; vm_compute; reflexivity|]. right. split; vm_compute; discriminate.
  - apply Forall_cons; [|apply Forall_cons; [|constructor]].
    + exists 1%Z, 0%nat. do 2 eexists. split; [reflexivity|]. split; [now left|]. split; vm_compute; reflexivity.
    + exists 2%Z, 1%nat. do 2 eexists. split; [reflexivity|]. split; [right; now left|]. split; vm_compute; reflexivity.
Qed.
Example C133_ex_value : (views fine_file, match fine_file with Ok f => match write_file f with Ok t => views (parse_raw no_comment_tool x_default [] t) | Err _ => [] end | Err _ => [] end) =
  ([[1 # 1; 2407 # 100000; 30001 # 30000; 140001 # 70000]; [2 # 1; 1256789 # 10000000; 90001 # 30000; 140001 # 70000]],
   [[1 # 1; 3 # 125; 1 # 1; 2 # 1]; [2 # 1; 157 # 1250; 3 # 1; 2 # 1]])%Q.
Proof. vm_compute. reflexivity. Qed.

(** ** C134 *)
(** The full statement is false of every hole that is not next to the origin: the hole drilled by the
    converted file, written and read again, is never where it should be. *)
Theorem C134_position_refuted : forall holesize f u i d locs, usable_format i d -> xs_format (xf_set f) = (i, d) -> xs_notation (xf_set f) = Absolute -> xs_units (xf_set f) <> u ->
  plain_header f locs -> consistent f -> Permutation locs (map snd (xf_tools f)) -> NoDup (map fst (xf_tools f)) ->
  (forall n l, In (n, l) (xf_tools f) -> exists t, nth_error (xf_store f) l = Some t /\ t_num t = n /\ tool_in_range_in u i d t) ->
  Forall (hit_in_range f i d) (xf_hits f) ->
  exists f1 text f2, convert u f = Ok f1 /\ write_file f1 = Ok text /\ parse_raw holesize (xf_set f1) [] text = Ok f2 /\ xs_units (xf_set f2) = u /\
    forall n, Forall2 (fun a b => off_origin d a -> ~ same_hole_in u d a b)
      (filter (by_tool n) (map (hole_view (xf_store f)) (xf_hits f))) (filter (by_tool n) (map (hole_view (xf_store f2)) (xf_hits f2))).
Proof. exact C134_position_lemma. Qed.
Print Assumptions C134_position_refuted.
(** What holds: the written file is in the other unit and its diameters are converted, within one
    unit of the last decimal place.  Missing: the positions, which keep their numbers. *)
Theorem C134_diameters_partial : forall holesize f u i d locs, usable_format i d -> xs_format (xf_set f) = (i, d) -> xs_notation (xf_set f) = Absolute -> xs_units (xf_set f) <> u ->
  plain_header f locs -> consistent f -> Permutation locs (map snd (xf_tools f)) -> NoDup (map fst (xf_tools f)) ->
  (forall n l, In (n, l) (xf_tools f) -> exists t, nth_error (xf_store f) l = Some t /\ t_num t = n /\ tool_in_range_in u i d t) ->
  Forall (hit_in_range f i d) (xf_hits f) ->
  exists f1 text f2, convert u f = Ok f1 /\ write_file f1 = Ok text /\ parse_raw holesize (xf_set f1) [] text = Ok f2 /\ xs_units (xf_set f2) = u /\
    (forall h, In h (xf_hits f2) -> hole_view (xf_store f2) h <> None) /\
    forall n, Forall2 (misplaced_hole u d) (filter (by_tool n) (map (hole_view (xf_store f)) (xf_hits f))) (filter (by_tool n) (map (hole_view (xf_store f2)) (xf_hits f2))).
Proof. exact C134_lemma. Qed.
Print Assumptions C134_diameters_partial.
(** The file of C133_ex before it is moved; its holes are 1 and more from the origin. *)
Example C134_ex : exists f, parse_raw no_comment_tool x_default [] fine_tools = Ok f /\
  usable_format 2 4 /\ xs_format (xf_set f) = (2, 4)%nat /\ xs_notation (xf_set f) = Absolute /\ xs_units (xf_set f) <> Metric /\ plain_header f [0; 1]%nat /\ consistent f /\
  Permutation [0; 1]%nat (map snd (xf_tools f)) /\ NoDup (map fst (xf_tools f)) /\
  (forall n l, In (n, l) (xf_tools f) -> exists t, nth_error (xf_store f) l = Some t /\ t_num t = n /\ tool_in_range_in Metric 2 4 t) /\
  Forall (hit_in_range f 2 4) (xf_hits f) /\ Forall (off_origin 4) (map (hole_view (xf_store f)) (xf_hits f)) /\ List.length (xf_hits f) = 2%nat.
Proof.
  eexists. split; [vm_compute; reflexivity|]. split; [unfold usable_format; lia|]. split; [reflexivity|]. split; [reflexivity|]. split; [discriminate|].
  split; [eexists None, ERewind, _; split; [reflexivity|]; split; [now left|exact Logic.I]|].
  split.
  { split; [|split].
    - intros s u I; cbn in I; repeat (destruct I as [I|I]; [injection I as <- <-; reflexivity|]); destruct I.
    - intros l t _ G. destruct l as [|[|l]]; cbn in G; [injection G as <-; reflexivity|injection G as <-; reflexivity|destruct l; discriminate].
    - intros h I. cbn in I. destruct I as [<-|[<-|[]]]; (eexists _, _; split; [reflexivity|]; split; [reflexivity|]; left; eexists; cbn; auto). }
  split; [apply Permutation_refl|]. split; [repeat constructor; cbn; intuition discriminate|].
  split; [|split; [|split; [|reflexivity]]].
  - intros n l I. cbn in I. destruct I as [I|[I|[]]]; injection I as <- <-; eexists; (split; [reflexivity|]); (split; [reflexivity|]).
    + split; [right; split; vm_compute; discriminate|]. split; [cbn; lia|]. cbn. repeat split.
    + split; [right; split; vm_compute; discriminate|]. split; [cbn; lia|]. cbn. repeat (split; [exact Logic.I|]). split; [split; vm_compute; reflexivity|exact Logic.I].
  - apply Forall_cons; [|apply Forall_cons; [|constructor]].
    + exists 1%Z, 0%nat. do 2 eexists. split; [reflexivity|]. split; [now left|]. split; vm_compute; reflexivity.
    + exists 2%Z, 1%nat. do 2 eexists. split; [reflexivity|]. split; [right; now left|]. split; vm_compute; reflexivity.
  - apply Forall_cons; [|apply Forall_cons; [|constructor]]; left; vm_compute; discriminate.
Qed.
Definition converted_back (u : unit_) (data : text) : list (list Q) :=
  match parse_raw no_comment_tool x_default [] data with
  | Ok f => match convert u f with Ok f1 => match write_file f1 with Ok t => views (parse_raw no_comment_tool (xf_set f1) [] t) | Err _ => [] end | Err _ => [] end
  | Err _ => []
  end.
Example C134_ex_value : converted_back Metric fine_tools = [[1 # 1; 6113 # 10000; 1 # 1; 2 # 1]; [2 # 1; 15961 # 5000; 3 # 1; 2 # 1]]%Q.
Proof. vm_compute. reflexivity. Qed.
