(** C173: blanks around the lines of a drill file, and how the lines end. *)
From Verif Require Import PyBase QcLib NumModel GerberText ExcellonModel DrillEolSpec DrillEolProofs.
Import ListNotations.
Open Scope list_scope.

(** White space before and after the lines does not matter. *)
Theorem C173_blanks : forall holesize se ext rs z, Forall good_row rs -> good_row z ->
  parse_raw holesize se ext (lines_text [ascii_of_nat 10] (map row_text rs) ++ row_text z) =
  parse_raw holesize se ext (lines_text [ascii_of_nat 10] (map middle rs) ++ middle z).
Proof. exact rows_read. Qed.
Print Assumptions C173_blanks.
(** The last line needs no end. *)
Theorem C173_last : forall holesize se ext ls z, Forall (fun l => ~ In (ascii_of_nat 10) l) (ls ++ [z]) ->
  parse_raw holesize se ext (lines_text [ascii_of_nat 10] ls ++ z) = parse_raw holesize se ext (lines_text [ascii_of_nat 10] (ls ++ [z])).
Proof. exact last_read. Qed.
Print Assumptions C173_last.
(** Carriage return and line feed are as good as a line feed. *)
Theorem C173_convention_partial : forall holesize se ext ls, Forall (fun l => ~ In (ascii_of_nat 10) l) ls ->
  parse_raw holesize se ext (lines_text [ascii_of_nat 13; ascii_of_nat 10] ls) = parse_raw holesize se ext (lines_text [ascii_of_nat 10] ls).
Proof. exact crlf_read. Qed.
Print Assumptions C173_convention_partial.

Definition no_comment_tool : unit_ -> text -> res (option tool) := fun _ _ => Ok None.
Definition lines : list text := [T "M48"; T "INCH,LZ"; T "T1C0.02"; T "%"; T "T1"; T "X01Y01"; T "X02Y01"; T "M30"].
Definition holes (data : text) : res nat := do f <- parse_raw no_comment_tool x_default [] data; Ok (List.length (xf_hits f)).
(** Not so a carriage return alone: all is taken for one line, and no hole is drilled. *)
Theorem C173_convention_refuted : Forall (fun l => ~ In (ascii_of_nat 10) l) lines /\
  holes (lines_text [ascii_of_nat 10] lines) = Ok 2%nat /\ holes (lines_text [ascii_of_nat 13] lines) = Ok 0%nat.
Proof.
  split; [|split; vm_compute; reflexivity].
  repeat (constructor; [intros X; cbn in X; repeat destruct X as [X|X]; try discriminate X; exact X|]). constructor.
Qed.
Print Assumptions C173_convention_refuted.

Example C173_ex : let rs := map (fun l => mkRow (T "  ") l [ascii_of_nat 9; ascii_of_nat 13]) lines in
  Forall good_row rs /\ good_row (mkRow [] [] (T " ")) /\ holes (lines_text [ascii_of_nat 10] (map row_text rs) ++ T " ") = Ok 2%nat.
Proof.
  cbv zeta. split; [|split; [|vm_compute; reflexivity]].
  - apply Forall_map. eapply Forall_impl; [|exact (proj1 C173_convention_refuted)]. intros l N.
    split; [|split; [exact N|]]; repeat (constructor; [cbn; tauto|]); constructor.
  - split; [constructor|]. split; [intros []|]. repeat (constructor; [cbn; tauto|]). constructor.
Qed.
Example C173_ex_last : Forall (fun l => ~ In (ascii_of_nat 10) l) ([T "M48"; T "INCH,LZ"; T "T1C0.02"; T "%"; T "T1"] ++ [T "X01Y01"]) /\
  holes (lines_text [ascii_of_nat 10] [T "M48"; T "INCH,LZ"; T "T1C0.02"; T "%"; T "T1"] ++ T "X01Y01") = Ok 1%nat.
Proof.
  split; [|vm_compute; reflexivity]. repeat (constructor; [intros X; cbn in X; repeat destruct X as [X|X]; try discriminate X; exact X|]). constructor.
Qed.
