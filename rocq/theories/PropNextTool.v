(** Properties of tool changes in drill files. *)
From Verif Require Import PyBase QcLib NumModel NumSpec FmtModel GerberText ExcellonModel ExcellonFile ExcellonSpec ExcellonRun NextToolSpec NextToolProofs PropExcellon.
From Coq Require Import Lia.
Import ListNotations.
Open Scope list_scope.
Open Scope Qc_scope.

(** ** C154 *)
(** A tool change without a number (M00) means the tool with the next number: the file reads as the program in which all changes are spelled out,
    provided that the next tool is defined or has been selected before. *)
Theorem C154_change_partial : forall holesize se u z fo tu i d defs dl e prog body tail eol,
  format_text fo tu -> (i, d) = match fo with Some f => f | None => xs_format se end -> readable i d ->
  Forall2 (defines i d z) defs dl -> (e = T "%" \/ e = T "M95") -> Forall2 (step_says i d z) prog body ->
  (tail = [] \/ tail = [T "M30"]) -> line_end eol -> tool_known (is_defined 1 defs) (spelled None prog) -> changes_known (fun n => is_defined n defs) None prog ->
  exists f, parse_raw holesize se [] (file_text eol (T "M48" :: (unit_text u ++ zeros_text z ++ tu) :: dl ++ e :: body ++ tail)) = Ok f /\
    map (hole_view (xf_store f)) (xf_hits f) =
      map (fun h => Some (fst h, diameter defs u (fst h), snd h)) (holes None (start_inc se) (0, 0) (spelled None prog)) /\
    xs_units (xf_set f) = u /\ xs_format (xf_set f) = (i, d) /\ xs_zeros (xf_set f) = z.
Proof. exact change_file. Qed.
Print Assumptions C154_change_partial.
(** Without that condition the claim is false: after a change to a tool that is not known, tool 1 is used, although
    selecting the same tool by its number defines it. *)
Definition drill_file (body : list text) : text := file_text [nl] (T "M48" :: T "INCH,LZ" :: ex_dl ++ T "%" :: body ++ [T "M30"]).
Theorem C154_unknown_refuted :
  views (parse_raw no_comment_tool x_default [] (drill_file [T "T2"; T "X01Y01"; T "M00"; T "X02Y01"])) = [[2 # 1; 1 # 8; 1 # 1; 1 # 1]; [1 # 1; 3 # 125; 2 # 1; 1 # 1]]%Q /\
  views (parse_raw no_comment_tool x_default [] (drill_file [T "T2"; T "X01Y01"; T "T3"; T "X02Y01"])) = [[2 # 1; 1 # 8; 1 # 1; 1 # 1]; [3 # 1; 1 # 25; 2 # 1; 1 # 1]]%Q.
Proof. split; vm_compute; reflexivity. Qed.
Print Assumptions C154_unknown_refuted.
(** A change before any tool is in use is an error. *)
Theorem C154_none : forall holesize st, x_prev st = [] -> x_state st = SDrill -> x_active st = None -> parse_line holesize st (T "M00") = Err GenericException.
Proof. intros holesize st E S A. unfold parse_line. rewrite E. cbn [app]. change (strip (T "M00")) with (T "M00"). cbn. unfold is_drill. cbn. rewrite S. cbn. rewrite A. reflexivity. Qed.
Print Assumptions C154_none.

Definition change_prog : list step := [Do (At (Some (grid (1 * 10 ^ 4) 4)) None); Change; Do (At None (Some (grid (2 * 10 ^ 4) 4))); Do (Use 5); Do (Use 4); Change; Do (At (Some (grid (3 * 10 ^ 4) 4)) None)].
Definition change_body : list text := [T "X01"; T "M00"; T "Y02"; T "T5"; T "T4"; T "M00"; T "X03"].
Example C154_ex : Forall2 (step_says 2 4 ZLead) change_prog change_body /\ tool_known (is_defined 1 ex_defs) (spelled None change_prog) /\
  changes_known (fun n => is_defined n ex_defs) None change_prog /\
  views (parse_raw no_comment_tool x_default [] (drill_file change_body)) = [[1 # 1; 3 # 125; 1 # 1; 0 # 1]; [2 # 1; 1 # 8; 1 # 1; 2 # 1]; [5 # 1; 7 # 125; 3 # 1; 2 # 1]]%Q.
Proof.
  split; [|split; [reflexivity|split; [cbn; auto|vm_compute; reflexivity]]]. unfold change_prog, change_body.
  constructor; [apply says_do, (says_at 2 4 ZLead _ _ (T "X01") []); [apply (field_some 2 4 ZLead "X" (T "01")); a_number|constructor|left; discriminate]|].
  constructor; [apply says_change|].
  constructor; [apply says_do, (says_at 2 4 ZLead _ _ [] (T "Y02")); [constructor|apply (field_some 2 4 ZLead "Y" (T "02")); a_number|right; discriminate]|].
  constructor; [apply says_do, (says_use 2 4 ZLead 5 (T "5")); [digits|discriminate|cbn; lia|reflexivity]|].
  constructor; [apply says_do, (says_use 2 4 ZLead 4 (T "4")); [digits|discriminate|cbn; lia|reflexivity]|].
  constructor; [apply says_change|].
  constructor; [apply says_do, (says_at 2 4 ZLead _ _ (T "X03") []); [apply (field_some 2 4 ZLead "X" (T "03")); a_number|constructor|left; discriminate]|].
  constructor.
Qed.
