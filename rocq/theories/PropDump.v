(** C171: the listing of a Gerber file has one line for each statement. *)
From Verif Require Import PyBase QcLib NumModel GerberText GerberEval DumpModel DumpSpec.
From Verif Require DumpProofs.
Import ListNotations.
Open Scope list_scope.

(** Whatever was read, listing the statements kept in the file succeeds.  The listing is made of as many lines as
    statements were read, the k-th line is the description of the k-th statement, in angle brackets and without
    line breaks. *)
Theorem C171_lines : forall fs fc data l se st kept u,
  parse_text fs data = Ok (l, se) -> evaluate_all fc g_init l = Ok (st, kept) ->
  exists lines, dump_str u kept = Ok (text_of_lines lines) /\ List.length lines = List.length l /\
    Forall2 (fun s line => stmt_str u s = Ok line /\ in_one_line line /\ bracketed line) kept lines.
Proof. exact DumpProofs.dump_read. Qed.

(** The listing of statements that follow others follows the listing of those. *)
Theorem C171_after : forall u l l' t t', dump_str u l = Ok t -> dump_str u l' = Ok t' -> dump_str u (l ++ l') = Ok (t ++ t').
Proof. intros u l l' t t' H H'. rewrite DumpProofs.dump_app, H, H'. reflexivity. Qed.

(** Statements with the same description agree in kind, number, name, mode and text, and in coordinates, scale factors
    and offsets up to the digits that are written. *)
Theorem C171_tells_partial : forall u s s' d, stmt_str u s = Ok d -> stmt_str u s' = Ok d -> agree s s'.
Proof. exact DumpProofs.str_agree. Qed.

Definition no_file : filesys := fun _ => Err IOError.
Definition sample : text :=
  T "%FSLAX24Y24*%" ++ [nl] ++ T "%MOIN*%" ++ [nl] ++ T "%ADD10C,0.05*%" ++ [nl] ++ T "G04 hello*" ++ [nl] ++ T "G75*" ++ [nl] ++
  T "D10*" ++ [nl] ++ T "X1000Y-25000D02*" ++ [nl] ++ T "X1Y1D01*" ++ [nl] ++ T "X5Y5*" ++ [nl] ++ T "M02*" ++ [nl].
Definition listed (data : text) : res text :=
  do p <- parse_text no_file data; do r <- evaluate_all (fun _ _ _ _ => None) g_init (fst p); dump_str (p_units (snd p)) (snd r).

Example C171_lines_ex : listed sample = Ok (text_of_lines
  [T "<Format Spec: 2:4 leading zero suppression absolute notation>"; T "<Mode: inches>"; T "<Aperture Definition: 10: circle>";
   T "<Comment:  hello>"; T "<QuadrantModeStmt type=QuadrantMode units=inch mode=multi-quadrant>"; T "<Aperture: 10>";
   T "<Coordinate Statement: X: 0.1 Y: -2.5 Op: Lights Off>"; T "<Coordinate Statement: X: 0.0001 Y: 0.0001 Op: Lights On>";
   T "<Coordinate Statement: X: 0.0005 Y: 0.0005 Op: Lights On>"; T "<EOF Statement>"]).
Proof. vm_compute. reflexivity. Qed.
Example C171_after_ex : dump_str Inch ([SAp 10 false] ++ [SEof]) = Ok (T "<Aperture: 10>" ++ [nl] ++ T "<EOF Statement>" ++ [nl]).
Proof. reflexivity. Qed.
Example C171_tells_ex : stmt_str Metric (SAp 11 true) = Ok (T "<Aperture: 11>") /\ stmt_str Metric (SAp 11 false) = Ok (T "<Aperture: 11>").
Proof. split; reflexivity. Qed.

Example C171_tells_coord :
  let s := SCoord (Some (T "G01")) (Some (Q2Qc (12345671 # 1000000))) None None None (Some (T "D01")) in
  let s' := SCoord (Some (T "G01")) (Some (Q2Qc (12345672 # 1000000))) None None None (Some (T "D01")) in
  stmt_str Inch s = Ok (T "<Coordinate Statement: Fn: G01 X: 12.3457 Op: Lights On>") /\ stmt_str Inch s' = stmt_str Inch s /\
  one_word (Some (T "G01")) /\ d_code (Some (T "D01")).
Proof.
  split; [vm_compute; reflexivity|]. split; [vm_compute; reflexivity|]. split; [|now eexists].
  split; [discriminate|]. cbn. intros X. repeat destruct X as [X|X]; try discriminate X. exact X.
Qed.

(** Not everything is told: two files that differ have the same listing.  Coordinates are written with six digits, and
    a macro called "circle" looks like a circle. *)
Definition far (n : string) : text := T "%FSLAX36Y36*%" ++ [nl] ++ T "X" ++ T n ++ T "D02*" ++ [nl].
Theorem C171_tells_refuted : exists data data' l l' se se' t,
  parse_text no_file data = Ok (l, se) /\ parse_text no_file data' = Ok (l', se') /\ l <> l' /\
  listed data = Ok t /\ listed data' = Ok t.
Proof.
  exists (far "12345671"), (far "12345672").
  eexists. eexists. eexists. eexists. eexists.
  split; [vm_compute; reflexivity|]. split; [vm_compute; reflexivity|]. split; [discriminate|]. split; vm_compute; reflexivity.
Qed.
Theorem C171_shape_refuted : exists d,
  stmt_str Inch (SAD 10 (T "C") [[Q2Qc 1]]) = Ok d /\ stmt_str Inch (SAD 10 (T "circle") [[Q2Qc 1]]) = Ok d.
Proof. eexists. split; reflexivity. Qed.

Print Assumptions C171_lines.
Print Assumptions C171_after.
Print Assumptions C171_tells_partial.
Print Assumptions C171_tells_refuted.
Print Assumptions C171_shape_refuted.
