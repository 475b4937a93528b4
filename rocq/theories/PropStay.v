(** Drill files that go on: C167. *)
From Verif Require Import PyBase QcLib NumModel NumSpec NumProofs GerberText ExcellonModel ExcellonFile ExcellonSpec ExcellonProofs ToolModel KeptSpec KeptProofs StaySpec StayProofs.
From Coq Require Import Lia.
Import ListNotations.
Open Scope list_scope.

(** ** C167 *)
(** When more lines follow, the holes and slots read so far stay the first ones, with the numbers that were read. *)
Theorem C167_holes_partial : forall holesize se ext data more f f', parse_raw holesize se ext data = Ok f -> parse_raw holesize se ext (data ++ nl :: more) = Ok f' ->
  exists new, xf_hits f' = xf_hits f ++ new.
Proof. intros holesize se ext data more f f' H H'. exact (proj1 (file_stays holesize se ext data more f f' H H')). Qed.
Print Assumptions C167_holes_partial.
(** Each stays with its tool, even if a tool of the same number is defined later; the tool keeps its diameter and its other values. *)
Theorem C167_tools : forall holesize se ext data more f f', parse_raw holesize se ext data = Ok f -> parse_raw holesize se ext (data ++ nl :: more) = Ok f' ->
  forall k h l, nth_error (xf_hits f) k = Some h -> (exists p, h = Hit (Some l) p) \/ (exists p q r, h = Slot (Some l) p q r) ->
  nth_error (xf_hits f') k = Some h /\ exists t t', nth_error (xf_store f) l = Some t /\ nth_error (xf_store f') l = Some t' /\ kept t t'.
Proof.
  intros holesize se ext data more f f' H H' k h l N Ht. destruct (proj1 (file_stays holesize se ext data more f f' H H')) as (new & E). split.
  - rewrite E, nth_error_app1; [exact N|]. apply nth_error_Some. congruence.
  - destruct (parse_raw_inv _ _ _ _ _ H) as (st & _ & W & Eh & _ & Es). assert (T0 : hit_tool h = Some l) by (destruct Ht as [(p & ->)|(p & q & r & ->)]; reflexivity).
    apply nth_error_In in N. rewrite Eh in N. pose proof (wf_hits st W h l N T0) as X. unfold tget in X. rewrite <- Es in X. destruct (nth_error (xf_store f) l) as [t|] eqn:Et; [|now destruct X].
    destruct (file_keeps holesize se ext data more f f' H H' l t Et) as (t' & Et' & K). exists t, t'. auto.
Qed.
Print Assumptions C167_tools.
(** The statements read so far stay, in their order. *)
Theorem C167_statements : forall holesize se ext data more f f', parse_raw holesize se ext data = Ok f -> parse_raw holesize se ext (data ++ nl :: more) = Ok f' ->
  within (map fst (xf_stmts f)) (map fst (xf_stmts f')).
Proof. intros holesize se ext data more f f' H H'. exact (proj2 (file_stays holesize se ext data more f f' H H')). Qed.
Print Assumptions C167_statements.
(** The place does not stay: the numbers are in the unit stated last, so the hole at one inch is at one millimetre when a metric part follows. *)
Definition part1 : text := T "M48" ++ nl :: T "INCH,LZ" ++ nl :: T "T1C.1" ++ nl :: T "%" ++ nl :: T "T1" ++ nl :: T "X01Y01".
Definition part2 : text := T "M48" ++ nl :: T "METRIC" ++ nl :: T "T1C.5" ++ nl :: T "%" ++ nl :: T "T1" ++ nl :: T "X05Y05".
Definition seen (r : res xfile) : option (unit_ * list (option tloc * list Q) * list (option Q)) :=
  match r with
  | Ok f => Some (xs_units (xf_set f), map (fun h => match h with Hit o p => (o, [this (fst p); this (snd p)]) | Slot o _ _ _ => (o, []) end) (xf_hits f), map (fun t => option_map this (t_diam t)) (xf_store f))
  | Err _ => None
  end.
Theorem C167_unit_refuted : seen (parse_raw (holesize false) x_default [] part1) = Some (Inch, [(Some 0%nat, [1 # 1; 1 # 1]%Q)], [Some (1 # 10)%Q]) /\
  exists x y, seen (parse_raw (holesize false) x_default [] (part1 ++ nl :: part2)) = Some (Metric, [(Some 0%nat, [1 # 1; 1 # 1]%Q); (Some 1%nat, [x; y])], [Some (1 # 10); Some (1 # 2)]%Q).
Proof. split; [vm_compute; reflexivity|]. do 2 eexists. vm_compute. reflexivity. Qed.
Print Assumptions C167_unit_refuted.

(** A second header in the same unit, which defines the same number again *)
Definition part3 : text := T "M48" ++ nl :: T "INCH,LZ" ++ nl :: T "T1C.5" ++ nl :: T "%" ++ nl :: T "T1" ++ nl :: T "X05Y05".
Example C167_ex : seen (parse_raw (holesize false) x_default [] (part1 ++ nl :: part3)) = Some (Inch, [(Some 0%nat, [1 # 1; 1 # 1]%Q); (Some 1%nat, [5 # 1; 5 # 1]%Q)], [Some (1 # 10); Some (1 # 2)]%Q).
Proof. vm_compute. reflexivity. Qed.
