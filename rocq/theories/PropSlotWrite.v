(** Properties of writing drill files with slots. *)
From Verif Require Import PyBase QcLib NumModel GerberText ExcellonModel ExcellonFile ExcellonSpec ExcellonMore SlotWrite PropExcellon PropExcellonFile.
Open Scope list_scope.

(** ** C127 *)
(** False of every file with a slot: whenever the number of the slot's tool is that of a tool of the
    file, writing fails, after the header and perhaps some holes have been written.  (What holds of files
    without slots is C41.) *)
Theorem C127_slot_refuted : forall f o a b r t n l t', In (Slot o a b r) (xf_hits f) -> tool_of (xf_store f) (Slot o a b r) = Some t ->
  In (n, l) (xf_tools f) -> nth_error (xf_store f) l = Some t' -> t_num t' = t_num t ->
  exists e, write_file f = Err e.
Proof.
  intros f o a b r t n l t' I E J E' N. apply (C127_lemma f o a b r t n l t'); auto.
  - destruct (tool_at_of (xf_store f) (Slot o a b r)) as (t0 & A & B); [now rewrite E|]. rewrite E in A. injection A as <-. exact B.
  - unfold tool_at, tget. now rewrite E'.
Qed.
Print Assumptions C127_slot_refuted.
(** A file read from a text with one slot; its error. *)
Example C127_ex : exists f, parse_raw no_comment_tool x_default [] with_slot = Ok f /\
  (exists o a b r t n l t', In (Slot o a b r) (xf_hits f) /\ tool_of (xf_store f) (Slot o a b r) = Some t /\
     In (n, l) (xf_tools f) /\ nth_error (xf_store f) l = Some t' /\ t_num t' = t_num t) /\
  write_file f = Err AttributeError.
Proof.
  eexists. split; [vm_compute; reflexivity|]. split; [|vm_compute; reflexivity].
  eexists _, _, _, _, _, _, 1%nat, _. split; [right; left; reflexivity|]. split; [reflexivity|]. split; [right; left; reflexivity|].
  split; [reflexivity|]. reflexivity.
Qed.
