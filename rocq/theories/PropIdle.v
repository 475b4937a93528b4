(** Lines of drill files that draw nothing: C166. *)
From Verif Require Import PyBase QcLib NumModel NumSpec NumProofs GerberText ExcellonModel ExcellonFile ExcellonSpec ExcellonRun ToolModel DrillLinesSpec IdleSpec IdleProofs.
From Coq Require Import Lia.
Import ListNotations.
Open Scope list_scope.

(** ** C166 *)
(** A comment without a keyword, a feed rate, a version, a cutter compensation or a line that is not understood may stand between any two lines of a file,
    unless the line before is a G00 or G01 without coordinates: the settings, tools, holes and slots are the same and so is the error if the file has one.
    One statement is added. *)
Theorem C166_noted_partial : forall holesize se ext a l t r b s, idle t s -> tight t -> spaces l -> spaces r -> ~ In nl (l ++ t ++ r) -> ~ pending a ->
  match parse_raw holesize se ext (a ++ nl :: b) with
  | Ok f => exists f', parse_raw holesize se ext (a ++ nl :: (l ++ t ++ r) ++ nl :: b) = Ok f' /\ one_more s f f'
  | Err e => parse_raw holesize se ext (a ++ nl :: (l ++ t ++ r) ++ nl :: b) = Err e
  end.
Proof. exact idle_file. Qed.
Print Assumptions C166_noted_partial.
(** It may also be the first line. *)
Theorem C166_first : forall holesize se ext l t r b s, idle t s -> tight t -> spaces l -> spaces r -> ~ In nl (l ++ t ++ r) ->
  match parse_raw holesize se ext b with
  | Ok f => exists f', parse_raw holesize se ext ((l ++ t ++ r) ++ nl :: b) = Ok f' /\ one_more s f f'
  | Err e => parse_raw holesize se ext ((l ++ t ++ r) ++ nl :: b) = Err e
  end.
Proof. exact idle_first. Qed.
Print Assumptions C166_first.
(** Blank lines change nothing at all, wherever they are. *)
Theorem C166_blank : forall holesize se ext a w b, spaces w ->
  parse_raw holesize se ext (a ++ nl :: w ++ nl :: b) = parse_raw holesize se ext (a ++ nl :: b).
Proof. exact blank_file. Qed.
Print Assumptions C166_blank.
(** Below a G01 without coordinates a comment is taken for the coordinates: a file with one slot becomes an error. *)
Definition above : text := T "M48" ++ nl :: T "INCH,LZ" ++ nl :: T "T1C.1" ++ nl :: T "%" ++ nl :: T "T1" ++ nl :: T "M15" ++ nl :: T "G01".
Definition below : text := T "X01Y02" ++ nl :: T "M30".
Theorem C166_refuted : idle (T "; note") (EComment (T " note")) /\ tight (T "; note") /\ ~ In nl (T "; note") /\ pending above /\
  (exists f, parse_raw (holesize false) x_default [] (above ++ nl :: below) = Ok f /\ List.length (xf_hits f) = 1%nat) /\
  parse_raw (holesize false) x_default [] (above ++ nl :: T "; note" ++ nl :: below) = Err ValueError.
Proof.
  split. { apply (idle_comment (T " note")). split; [discriminate|]. intros w I. apply contains_in. cbn in I. repeat (destruct I as [<-|I]; [reflexivity|]). destruct I. }
  split. { split; intros c r E; [cbn in E; injection E as <- _; reflexivity|]. change (T "; note") with (T "; not" ++ ["e"%char]) in E. apply app_inj_tail in E as [_ <-]. reflexivity. }
  split. { intros I. repeat (destruct I as [E|I]; [discriminate|]). destruct I. }
  split. { exists (T "M48" ++ nl :: T "INCH,LZ" ++ nl :: T "T1C.1" ++ nl :: T "%" ++ nl :: T "T1" ++ nl :: T "M15" ++ [nl]), [], (T "G01"), []. split; [reflexivity|]. split; [|split; [constructor|split; [now intros []|split; [constructor|now right]]]].
    right. exists (T "M48" ++ nl :: T "INCH,LZ" ++ nl :: T "T1C.1" ++ nl :: T "%" ++ nl :: T "T1" ++ nl :: T "M15"). reflexivity. }
  split; [eexists; split; vm_compute; reflexivity|vm_compute; reflexivity].
Qed.
Print Assumptions C166_refuted.

(** An unknown line in a file that uses a tool it does not define: the definition is put in front of the use, behind the new line. *)
Definition start : text := T "M48" ++ nl :: T "INCH,LZ" ++ nl :: T "%".
Definition rest : text := T "T1" ++ nl :: T "X01Y02" ++ nl :: T "M30".
Definition seen (r : res xfile) : option (list estmt * list Z * nat) := match r with Ok f => Some (filter (fun s => match s with ECoord _ _ _ => false | _ => true end) (map fst (xf_stmts f)), map fst (xf_tools f), List.length (xf_hits f)) | Err _ => None end.
Lemma others t : In t [T "G93"; T "DETECT,ON"] -> unrecognised t.
Proof.
  intros I. cbn in I. split; [|split]; [apply contains_in|apply contains_in|]; try (destruct I as [<-|[<-|[]]]; reflexivity).
  intros w J. apply begins_starts. cbn in J. destruct I as [<-|[<-|[]]]; repeat (destruct J as [<-|J]; [reflexivity|]); destruct J.
Qed.
Example C166_ex : idle (T "G93") (EUnknown (T "G93")) /\ tight (T "G93") /\ ~ In nl ([] ++ T "G93" ++ [cr]) /\ spaces [cr] /\ ~ pending start /\
  seen (parse_raw (holesize false) x_default [] (start ++ nl :: rest)) =
    Some ([EHeaderBegin; EUnit Inch ZLead None; ERewind; ETool 0%nat; ESel 1 None; EEnd None None], [1%Z], 1%nat) /\
  seen (parse_raw (holesize false) x_default [] (start ++ nl :: ([] ++ T "G93" ++ [cr]) ++ nl :: rest)) =
    Some ([EHeaderBegin; EUnit Inch ZLead None; ERewind; EUnknown (T "G93"); ETool 0%nat; ESel 1 None; EEnd None None], [1%Z], 1%nat).
Proof.
  split; [apply idle_other; [apply others; now left|discriminate]|].
  split. { split; intros c r E; [cbn in E; injection E as <- _; reflexivity|]. change (T "G93") with (T "G9" ++ ["3"%char]) in E. apply app_inj_tail in E as [_ <-]. reflexivity. }
  split. { intros I. repeat (destruct I as [E|I]; [discriminate|]). destruct I. }
  split; [repeat constructor|]. split.
  - intros (p & l & w & r & E & _ & _ & _ & R & W). apply (f_equal (@rev ascii)) in E. rewrite !rev_app_distr in E. cbn in E.
    destruct (rev r) as [|x r'] eqn:Er; [destruct W as [ -> | -> ]; cbn in E; discriminate|]. cbn in E. injection E as X _. assert (Z : In x r) by (apply in_rev; rewrite Er; now left).
    unfold spaces in R. rewrite Forall_forall in R. apply R in Z. rewrite <- X in Z. discriminate.
  - split; vm_compute; reflexivity.
Qed.
