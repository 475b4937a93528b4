(** Drill files that state no units. *)
From Verif Require Import PyBase QcLib NumModel NumSpec NumProofs GerberText ExcellonModel ExcellonFile ExcellonSpec ExcellonRun UnstatedProofs PropExcellon.
From Coq Require Import Lia.
Open Scope list_scope.
Open Scope Qc_scope.

(** ** C164 *)
(** Units, zeros, format and notation are those of the settings given to the parser. *)
Theorem C164_given : forall holesize se i d defs dl e prog body tail eol, xs_format se = (i, d) -> readable i d ->
  Forall2 (defines i d (xs_zeros se)) defs dl -> (e = T "%" \/ e = T "M95") -> Forall2 (says i d (xs_zeros se)) prog body ->
  (tail = [] \/ tail = [T "M30"]) -> line_end eol -> tool_known (is_defined 1 defs) prog ->
  exists f, parse_raw holesize se [] (file_text eol (T "M48" :: dl ++ e :: body ++ tail)) = Ok f /\
    map (hole_view (xf_store f)) (xf_hits f) =
      map (fun h => Some (fst h, diameter defs (xs_units se) (fst h), snd h)) (holes None (start_inc se) (0, 0) prog) /\
    xs_units (xf_set f) = xs_units se /\ xs_format (xf_set f) = (i, d) /\ xs_zeros (xf_set f) = xs_zeros se.
Proof. intros. eapply unstated; eauto. Qed.
Print Assumptions C164_given.
(** Without settings they are inches, kept leading zeros, two digits before and four behind the point, and absolute. *)
Theorem C164_default : forall holesize defs dl e prog body tail eol,
  Forall2 (defines 2 4 ZLead) defs dl -> (e = T "%" \/ e = T "M95") -> Forall2 (says 2 4 ZLead) prog body ->
  (tail = [] \/ tail = [T "M30"]) -> line_end eol -> tool_known (is_defined 1 defs) prog ->
  exists f, parse_raw holesize x_default [] (file_text eol (T "M48" :: dl ++ e :: body ++ tail)) = Ok f /\
    map (hole_view (xf_store f)) (xf_hits f) =
      map (fun h => Some (fst h, diameter defs Inch (fst h), snd h)) (holes None false (0, 0) prog) /\
    xs_units (xf_set f) = Inch /\ xs_format (xf_set f) = (2, 4)%nat /\ xs_zeros (xf_set f) = ZLead.
Proof. intros. eapply (unstated holesize x_default Inch ZLead 2 4); eauto. unfold readable. lia. Qed.
Print Assumptions C164_default.

(** Its hypotheses are those of C36, for which see C36_ex_hypotheses. *)
Example C164_ex : views (parse_raw no_comment_tool x_default [] (file_text [nl] (T "M48" :: ex_dl ++ T "%" :: ex_body ++ [T "M30"]))) =
  [[1 # 1; 3 # 125; 1 # 1; 2 # 1]; [1 # 1; 3 # 125; 1 # 1; - 1 # 2]; [1 # 1; 3 # 125; 2 # 1; - 1 # 2]; [1 # 1; 3 # 125; 5 # 2; - 1 # 2]; [1 # 1; 3 # 125; 3 # 1; - 1 # 2]; [2 # 1; 1 # 8; 1 # 2; 5 # 4]]%Q /\
  views (parse_raw no_comment_tool (mkXset Metric (3, 3)%nat ZTrail Absolute) [] (file_text [nl] [T "M48"; T "T1C0.5"; T "%"; T "T1"; T "X2500Y3"; T "M30"])) = [[1 # 1; 1 # 2; 5 # 2; 3 # 1000]]%Q.
Proof. split; vm_compute; reflexivity. Qed.
