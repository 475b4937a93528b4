(** Properties C19-C23 and C63: reading and writing the text of Gerber files. *)
From Verif Require Import PyBase QcLib NumModel NumSpec Regex FmtModel GerberText GerberTextSpec GerberTextProofs.
Open Scope Qc_scope.

(** ** C19 *)

Theorem C19_coordinate_roundtrip : forall st fn x y i j op, announceable st ->
  writable st (SCoord fn x y i j op) ->
  exists t, to_gerber st (SCoord fn x y i j op) = Ok t /\
    forall inc rest, parse_step inc st (t ++ rest) = Some (Ok ([SCoord fn x y i j op], st, rest)).
Proof. exact coordinate_roundtrip. Qed.
Print Assumptions C19_coordinate_roundtrip.

Definition st24 : pset := mkPset Leading (2, 4)%nat true Metric.

Example st24_announceable : announceable st24.
Proof. split; [discriminate|]. unfold usable_format. cbn. lia. Qed.
Example arc_writable : writable st24 (SCoord (Some (T "G02")) (Some (Q2Qc (15 # 10))) None (Some (Q2Qc (-3 # 10000))) None (Some (T "D01"))).
Proof.
  constructor; cbn; auto 10.
  - exists 15000%Z. split; [apply Qc_is_canon; reflexivity|reflexivity].
  - exists (-3)%Z. split; [apply Qc_is_canon; reflexivity|reflexivity].
  - discriminate.
Qed.
Example arc_text : to_gerber st24 (SCoord (Some (T "G02")) (Some (Q2Qc (15 # 10))) None (Some (Q2Qc (-3 # 10000))) None (Some (T "D01"))) =
  Ok (T "G02X15000I-3D01*").
Proof. vm_compute. reflexivity. Qed.

(** ** C20 *)

(** The full claim: every aperture definition with positive dimensions is read back with the same
    fields.  It is false because dimensions are written with four significant digits, and because
    the pattern for circles also matches macro names starting with C when no modifiers follow. *)
Theorem C20_statement_roundtrip_refuted :
  exists st d, announceable st /\
    (exists v t, 0 < v /\ to_gerber st (SAD d (T "C") [[v]]) = Ok t /\
       forall inc rest, parse_step inc st (t ++ rest) <> Some (Ok ([SAD d (T "C") [[v]]], st, rest))) /\
    (exists name t, macro_name name /\ to_gerber st (SAD d name [[]]) = Ok t /\
       forall inc, exists s, parse_step inc st t = Some (Ok ([s], st, [])) /\ s <> SAD d name [[]] /\
       exists v, s = SAD d (T "C") [[v]]).
Proof.
  exists st24, 10%Z. split; [exact st24_announceable|]. split.
  - exists (Q2Qc (12347 # 100000)), (T "%ADD10C,0.1235*%"). split; [reflexivity|]. split; [vm_compute; reflexivity|].
    intros inc rest H. vm_compute in H. discriminate H.
  - exists (T "C5"), (T "%ADD10C5*%"). split.
    { split; [apply char_in_true; reflexivity|]. split; [discriminate|]. repeat (apply Forall_cons; [apply char_in_true; reflexivity|]). apply Forall_nil. }
    split; [vm_compute; reflexivity|]. intros inc. eexists. split; [vm_compute; reflexivity|]. split; [discriminate|].
    eexists. reflexivity.
Qed.
Print Assumptions C20_statement_roundtrip_refuted.

(** What holds: every statement of [writable] (dimensions of at most four digits, macro names not
    mistaken for circles) is read back, from any text it stands at the front of, consuming exactly
    its own text.  Missing: aperture dimensions with more digits (see C63) and macro names starting
    with C used without modifiers. *)
Theorem C20_statement_roundtrip_partial : forall st s, announceable st -> writable st s ->
  exists t, to_gerber st s = Ok t /\
    forall inc rest, parse_step inc st (t ++ rest) = Some (Ok ([s], after st s, rest)).
Proof. exact statement_roundtrip. Qed.
Print Assumptions C20_statement_roundtrip_partial.

Example macro_aperture_writable : writable st24 (SAD 12 (T "BOX1") [[Q2Qc (25 # 100); Q2Qc (-15 # 10)]]).
Proof.
  apply W_define_macro; [lia| |repeat constructor|discriminate].
  - split; [apply char_in_true; reflexivity|]. split; [discriminate|]. repeat (apply Forall_cons; [apply char_in_true; reflexivity|]). apply Forall_nil.
  - exists 25%Z, 2%nat, 0%nat. split; [reflexivity|apply Qc_is_canon; reflexivity].
  - exists (-15)%Z, 1%nat, 0%nat. split; [reflexivity|apply Qc_is_canon; reflexivity].
Qed.
Example macro_aperture_text : to_gerber st24 (SAD 12 (T "BOX1") [[Q2Qc (25 # 100); Q2Qc (-15 # 10)]]) = Ok (T "%ADD12BOX1,0.25X-1.5*%").
Proof. vm_compute. reflexivity. Qed.

(** ** C63 *)

(** Exactly: aperture dimensions are written with a relative error of at most 1/2000. *)
Theorem C63_aperture_dimensions_close : forall st d shape l, (0 <= d)%Z ->
  In shape [T "C"; T "R"; T "O"; T "P"] -> l <> [] -> Forall (fun v => 0 < v) l ->
  exists t l', to_gerber st (SAD d shape [l]) = Ok t /\
    Forall2 (fun v w => qabs (v - w) <= v * Q2Qc (1 # 2000)) l l' /\
    forall inc st' rest, parse_step inc st' (t ++ rest) = Some (Ok ([SAD d shape [l']], st', rest)).
Proof. exact dimension_roundtrip. Qed.
Print Assumptions C63_aperture_dimensions_close.

Example dimension_example : to_gerber st24 (SAD 10 (T "R") [[Q2Qc (12347 # 100000); Q2Qc (1 # 3)]]) = Ok (T "%ADD10R,0.1235X0.3333*%").
Proof. vm_compute. reflexivity. Qed.

(** ** C21 *)

(** The full claim for files that have been read: writing the statements and reading them again
    gives the same statements.  A macro definition not used by any aperture loses its body. *)
Theorem C21_file_roundtrip_refuted :
  exists data l st t, parse_text no_files data = Ok (l, st) /\ write_file st l = Ok t /\
    parse_text no_files t <> Ok (l, st).
Proof.
  exists (T "%FSLAX24Y24*%" ++ nl :: T "%AMBOX*1,1,2,3,4*%" ++ nl :: T "M02*" ++ [nl]). do 3 eexists.
  split; [vm_compute; reflexivity|]. split; [vm_compute; reflexivity|]. vm_compute. discriminate.
Qed.
Print Assumptions C21_file_roundtrip_refuted.

(** What holds: a list of [line_writable] statements in which the number format comes before the
    first coordinate is read back exactly, whatever files exist.  Missing: macro definitions, image
    offsets below 1/10000, of one axis or of more than five decimal places, scale factors other than
    one, unknown statements, dimensions with more than four digits. *)
Theorem C21_file_roundtrip_partial : forall st l, announceable st -> Forall (line_writable st) l ->
  format_before_coords l ->
  exists t, write_file st l = Ok t /\ forall fs, parse_text fs t = Ok (l, fold_left after l pset0).
Proof. exact file_roundtrip. Qed.
Print Assumptions C21_file_roundtrip_partial.

Definition small_file : list stmt :=
  [SCom (T " made by hand"); SFS Leading true (2, 4)%nat; SMO true Metric; SIN (T "a*b"); SOF (Some (Q2Qc (-5 # 4))) (Some 0); SSF (Some 1) (Some 1);
   SAD 10 (T "C") [[Q2Qc (1 # 2)]]; SAp 10 false;
   SCoord None (Some (Q2Qc (1 # 4))) (Some 0) None None (Some (T "D03")); SEof].
Example small_file_writable : Forall (line_writable st24) small_file /\ format_before_coords small_file.
Proof.
  split; [|exact I]. unfold small_file.
  repeat match goal with |- Forall _ (_ :: _) => apply Forall_cons | |- Forall _ [] => apply Forall_nil end.
  - apply LW_stmt, W_comment. repeat constructor; cbn; intuition discriminate.
  - apply LW_stmt, (W_format st24).
  - apply LW_stmt, W_units.
  - apply LW_image_name. repeat constructor; cbn; intuition discriminate.
  - apply LW_offset; [exists (-125000)%Z|exists 0%Z]; (split; [apply Qc_is_canon; reflexivity|]; split; [reflexivity|]); [right; lia|now left].
  - apply LW_scale.
  - apply LW_stmt, W_define_circle; [lia|]. repeat constructor. exists 5%Z, 1%nat, 0%nat.
    split; [reflexivity|apply Qc_is_canon; reflexivity].
  - apply LW_stmt, W_aperture. lia.
  - apply LW_stmt, W_coord; cbn; auto 10; [| |discriminate].
    + exists 2500%Z. split; [apply Qc_is_canon; reflexivity|reflexivity].
    + exists 0%Z. split; [apply Qc_is_canon; reflexivity|reflexivity].
  - apply LW_stmt, W_eof.
Qed.
Example small_file_text : write_file st24 small_file = Ok (T "G04 made by hand*" ++ nl :: T "%FSLAX24Y24*%" ++ nl :: T "%MOMM*%" ++ nl ::
  T "%INa*b*%" ++ nl :: T "%OFA-1.25B0.0*%" ++ nl :: T "%SFA1.0B1.0*%" ++ nl :: T "%ADD10C,0.5*%" ++ nl :: T "D10*" ++ nl :: T "X2500Y0D03*" ++ nl :: T "M02*" ++ [nl]).
Proof. vm_compute. reflexivity. Qed.

(** ** C22 *)

(** The loop over a line always comes to an end (the bound used by the model is never the reason),
    every pass consumes at least one character, and a text without includes gives at most one
    statement per character. *)
Theorem C22_parsing_terminates :
  (forall inc st line, runs inc st line (parse_line (Datatypes.S (List.length line)) inc st line)) /\
  (forall inc st line l st' r, parse_step inc st line = Some (Ok (l, st', r)) -> (List.length r < List.length line)%nat) /\
  (forall data l st, parse_text no_files data = Ok (l, st) -> (List.length l <= List.length data)%nat).
Proof. exact (conj (fun inc st line => parse_line_runs inc _ st line (le_n _))
  (conj (fun inc st line l st' r H => proj1 (parse_step_progress inc st line l st' r H)) parse_text_count)). Qed.
Print Assumptions C22_parsing_terminates.

Example parse_junk : rmap fst (parse_text no_files (T "junk**X1D02*G99*")) = Ok [].
Proof. vm_compute. reflexivity. Qed.
Example parse_junk2 : rmap fst (parse_text no_files (T "junk**X1D02*G99*" ++ [nl])) = Ok [SUnk (T "junk**X1D02*G99*")].
Proof. vm_compute. reflexivity. Qed.

(** ** C23 *)

(** Files that include each other without end make reading fail with IOError, from whichever of
    them it starts; files nested at most ten deep are read, each include replaced by the
    statements of the named file. *)
Theorem C23_includes_bounded :
  (forall fs F, includes_forever fs F -> forall n t, F n -> fs n = Ok t -> parse_text fs t = Err IOError) /\
  (forall fs st t l, announceable st -> depicts fs st 10 t l -> format_before_coords l ->
     parse_text fs t = Ok (l, fold_left after l pset0)).
Proof. exact (conj (fun fs F H n t => includes_forever_err fs F H include_limit n pset0 t) parse_text_depicts). Qed.
Print Assumptions C23_includes_bounded.

(** Two files including each other. *)
Definition ping_pong : filesys := fun n =>
  if teq n (T "a.g") then Ok (T "%IFb.g*%" ++ [nl]) else if teq n (T "b.g") then Ok (T "G04 b*" ++ nl :: T "%IFa.g*%" ++ [nl]) else Err IOError.
Example ping_pong_forever : includes_forever ping_pong (fun n => In n [T "a.g"; T "b.g"]).
Proof.
  intros n [<-|[<-|[]]].
  - exists st24, [], [], (T "b.g"), []. split; [exact st24_announceable|]. repeat split; auto; try (right; left; reflexivity).
    repeat constructor; cbn; intuition discriminate.
  - exists st24, [SCom (T " b")], (T "G04 b*" ++ [nl]), (T "a.g"), []. split; [exact st24_announceable|].
    split; [repeat constructor; cbn; intuition discriminate|]. repeat split; auto; try (left; reflexivity).
    repeat constructor; cbn; intuition discriminate.
Qed.
(** A chain of eleven files (ten includes) is accepted, twelve are not: f0 includes f1 ... *)
Definition chain (len : Z) : filesys := fun n =>
  match n with
  | [c1; c2] => let k := dval [c1; c2] in
      if (k =? len)%Z then Ok (T "G04 end*" ++ [nl]) else Ok (T "%IF" ++ (match dig 2 (k + 1) with l => l end) ++ T "*%" ++ [nl])
  | _ => Err IOError
  end.
Example chain_10 : (do t <- chain 10 (T "00"); rmap fst (parse_text (chain 10) t)) = Ok [SCom (T " end")].
Proof. vm_compute. reflexivity. Qed.
Example chain_11 : (do t <- chain 11 (T "00"); rmap fst (parse_text (chain 11) t)) = Err IOError.
Proof. vm_compute. reflexivity. Qed.
