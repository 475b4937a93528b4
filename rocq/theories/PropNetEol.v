(** C172: the ends of the lines of a netlist do not matter. *)
From Verif Require Import PyBase QcLib NumModel IpcModel IpcSpec IpcProofs NetEolSpec NetEolProofs.
Import ListNotations.
Open Scope list_scope.

(** A netlist is read alike whichever of the three conventions its lines end in. *)
Theorem C172_convention : forall e ls, an_end e -> Forall one_line ls ->
  parse_raw (text_with (map (fun l => (l, e)) ls)) = parse_raw (file_of ls).
Proof. exact one_convention. Qed.
Print Assumptions C172_convention.
(** The conventions may be mixed, and the last line may have no end. *)
Theorem C172_mixed : forall ls last, Forall (fun l => one_line (fst l) /\ an_end (snd l)) ls -> clear_ends ls -> one_line last -> last <> [] ->
  parse_raw (text_with ls) = parse_raw (file_of (map fst ls)) /\
  parse_raw (text_with ls ++ last) = parse_raw (file_of (map fst ls ++ [last])).
Proof. exact ends_do_not_matter. Qed.
Print Assumptions C172_mixed.

(** A record with a continuation *)
Definition rows : list text := [T "P  UNITS CUST 1"; T "379A B"; T "000 C"; []; T "999"].
Ltac one_lines := repeat (constructor; [unfold one_line; cbn; repeat (constructor; [reflexivity|]); constructor|]); constructor.
Example C172_ex : Forall one_line rows /\ an_end crlf /\
  rmap (fun n => (n_set n, n_stmts n)) (parse_raw (text_with (map (fun l => (l, crlf)) rows))) =
    Ok (mkIS true false, [IParameter (T "UNITS") (T "CUST 1"); IAdjacency (T "A") [T "B"; T "C"]; IEnd]).
Proof. split; [one_lines|]. split; [unfold an_end; auto|]. vm_compute. reflexivity. Qed.
Example C172_ex_mixed : let ls := [(T "P  UNITS CUST 1", ret); (T "379A B", crlf); ([], ret); (T "379A C", lf)] in
  Forall (fun l => one_line (fst l) /\ an_end (snd l)) ls /\ clear_ends ls /\ one_line (T "999") /\
  rmap n_stmts (parse_raw (text_with ls ++ T "999")) =
    Ok [IParameter (T "UNITS") (T "CUST 1"); IAdjacency (T "A") [T "B"]; IAdjacency (T "A") [T "C"]; IEnd].
Proof.
  cbv zeta. split; [repeat (constructor; [split; [unfold one_line; cbn; repeat (constructor; [reflexivity|]); constructor|unfold an_end; cbn; auto]|]); constructor|].
  split; [cbn; repeat split; discriminate|]. split; [unfold one_line; cbn; repeat (constructor; [reflexivity|]); constructor|]. vm_compute. reflexivity.
Qed.
(** Why the ends must be clear: a line ended by a carriage return, then an empty line ended by a line feed, are one
    line, which a continuation can follow. *)
Example C172_ex_unclear : let ls := [(T "379A B", ret); ([], lf); (T "000 C", lf)] in ~ clear_ends ls /\
  rmap n_stmts (parse_raw (text_with ls)) = Ok [IAdjacency (T "A") [T "B"; T "C"]] /\
  rmap n_stmts (parse_raw (file_of (map fst ls))) = Ok [IAdjacency (T "A") [T "B"]].
Proof. cbv zeta. split; [intros [H _]; now apply H|]. split; vm_compute; reflexivity. Qed.
