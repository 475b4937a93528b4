(** Properties of the image parameters: C146, C147. *)
From Verif Require Import PyBase QcLib NumModel NumSpec MacroModel GerberText GerberTextSpec GerberEval GerberEvalSpec PropGerberText PropGerberEval ImageParamSpec ImageParamProofs.
Open Scope Qc_scope.

(** ** C146 *)

(** The full claim: reading an offset, a mirroring or a scale factor gives what the statement says, an axis
    which it does not mention being left alone, and writing the statement gives text that is read as the same
    statement again.  It fails in three ways: a statement about one axis only cannot be read, scale factors
    are read as one whatever they are, and offsets below 1/10000 are written as text that is not read
    as an offset. *)
Theorem C146_image_parameters_refuted :
  (forall fs x v, decimal_text x v -> parse_text fs ((T "%OFA" ++ x ++ T "*%") ++ [nl]) = Err TypeError) /\
  (forall fs a, (a = 0 \/ a = 1)%Z -> parse_text fs ((T "%MIA" ++ show_int a ++ T "*%") ++ [nl]) = Err TypeError) /\
  (forall fs n, Forall (fun x => ~ In x (T "%" ++ [nl; cr])) n -> parse_text fs ((T "%SF" ++ n ++ T "*%") ++ [nl]) = Ok ([SSF (Some 1) (Some 1)], pset0)) /\
  (exists a b t, to_gerber pset0 (SOF (Some a) (Some b)) = Ok t /\ forall l st, parse_text no_files (t ++ [nl]) = Ok (l, st) -> l <> [SOF (Some a) (Some b)]).
Proof.
  split; [exact offset_axis_missing|]. split; [exact mirror_axis_missing|]. split; [exact scale_read|].
  exists (grid 1 5), 0. eexists. split; [vm_compute; reflexivity|]. intros l st H E. subst l. vm_compute in H. discriminate H.
Qed.
Print Assumptions C146_image_parameters_refuted.

(** What holds: offsets of both axes are read exactly, however many digits they have; mirroring of both axes
    too; offsets of five decimal places which are not smaller than 1/10000 are read back from what is written. *)
Theorem C146_image_parameters_partial :
  (forall fs x y vx vy, decimal_text x vx -> decimal_text y vy -> parse_text fs ((T "%OFA" ++ x ++ T "B" ++ y ++ T "*%") ++ [nl]) = Ok ([SOF (Some vx) (Some vy)], pset0)) /\
  (forall fs a b, (a = 0 \/ a = 1)%Z -> (b = 0 \/ b = 1)%Z -> parse_text fs ((T "%MIA" ++ show_int a ++ T "B" ++ show_int b ++ T "*%") ++ [nl]) = Ok ([SMI (Some a) (Some b)], pset0)) /\
  (forall fs st a b, five_places a -> five_places b -> exists t, to_gerber st (SOF (Some a) (Some b)) = Ok t /\ parse_text fs (t ++ [nl]) = Ok ([SOF (Some a) (Some b)], pset0)).
Proof. exact (conj offset_read (conj mirror_read offset_written)). Qed.
Print Assumptions C146_image_parameters_partial.

Example decimals : decimal_text (T "-12.345") (Q2Qc (-12345 # 1000)) /\ decimal_text (T "+7") (zq 7) /\ five_places (Q2Qc (-12345 # 1000)).
Proof.
  assert (D : forall s, forallb (fun c => char_in c (T "0123456789")) s = true -> digit_string s).
  { intros s H. apply NumProofs.digit_string_iff. rewrite forallb_forall in H. apply forallb_forall. intros c Hc. specialize (H c Hc). destruct c as [[] [] [] [] [] [] [] []]; (reflexivity || discriminate H). }
  split; [|split].
  - replace (Q2Qc (-12345 # 1000)) with (- grid (int_of (T "12" ++ T "345")) (List.length (T "345"))) by (apply Qc_is_canon; vm_compute; reflexivity).
    apply (DT_minus (T "12") (T "345")); [now apply D|discriminate|now apply D].
  - replace (zq 7) with (grid (int_of (T "7" ++ [])) (List.length (A := ascii) [])) by (apply Qc_is_canon; vm_compute; reflexivity).
    apply (DT_plus (T "7") []); [now apply D|discriminate|constructor].
  - exists (-1234500)%Z. split; [apply Qc_is_canon; vm_compute; reflexivity|]. split; [reflexivity|right; lia].
Qed.
Example offset_text : to_gerber pset0 (SOF (Some (Q2Qc (-12345 # 1000))) (Some (zq 7))) = Ok (T "%OFA-12.345B7.0*%").
Proof. vm_compute. reflexivity. Qed.
Example tiny_offset_text : to_gerber pset0 (SOF (Some (grid 1 5)) (Some 0)) = Ok (T "%OFA1e-05.0B0.0*%").
Proof. vm_compute. reflexivity. Qed.

(** ** C147 *)

(** The full claim: an offset, a scale factor, a mirroring, a rotation or an exchange of the axes at the
    start of a file moves everything that is flashed to where the parameter puts it.  None of them does. *)
Definition flash_file : list stmt := [SMO true Inch; SAD 10 (T "C") [[zq 1]]; SAp 10 false; coord None (Some 3%Z) (Some 1%Z) D03].
Definition flash_places (l : list stmt) : list (option (Q * Q)) :=
  match image no_centre [] l with Some ms => map (fun m => option_map (fun p => (this (fst p), this (snd p))) (flashed_at m)) ms | None => [] end.
Theorem C147_image_parameters_act_refuted : forall s,
  In s [SOF (Some (zq 5)) (Some 0); SSF (Some (zq 2)) (Some (zq 2)); SMI (Some 1%Z) (Some 0%Z); SIR 90; SIR 180; SIR 270; SAS (T "AYBX")] ->
  exists ms, is_ok (evaluate_all no_centre g_init (s :: flash_file)) = true /\ image no_centre [] flash_file = Some ms /\
    forall ms', image no_centre [] (s :: flash_file) = Some ms' -> map flashed_at ms' <> map (fun m => option_map (puts s) (flashed_at m)) ms.
Proof.
  intros s H. destruct (image no_centre [] flash_file) as [ms|] eqn:E; [|vm_compute in E; discriminate E]. exists ms.
  assert (Places : flash_places flash_file = [Some (3 # 1, 1 # 1)%Q]) by (vm_compute; reflexivity).
  assert (Same : flash_places (s :: flash_file) = [Some (3 # 1, 1 # 1)%Q]) by (destruct H as [<-|[<-|[<-|[<-|[<-|[<-|[<-|[]]]]]]]]; vm_compute; reflexivity).
  split; [destruct H as [<-|[<-|[<-|[<-|[<-|[<-|[<-|[]]]]]]]]; vm_compute; reflexivity|]. split; [reflexivity|]. intros ms' E' C.
  unfold flash_places in Places, Same. rewrite E in Places. rewrite E' in Same.
  destruct ms as [|m [|? ?]]; try discriminate Places. destruct ms' as [|m' [|? ?]]; try discriminate Same. cbn [map] in *.
  injection Places as Places. injection Same as Same. injection C as C. rewrite C in Same. destruct (flashed_at m) as [[x y]|]; [|discriminate Places].
  cbn [option_map fst snd] in *. injection Places as X Y.
  assert (x = zq 3) as -> by (apply Qc_is_canon; rewrite X; reflexivity). assert (y = zq 1) as -> by (apply Qc_is_canon; rewrite Y; reflexivity).
  destruct H as [<-|[<-|[<-|[<-|[<-|[<-|[<-|[]]]]]]]]; vm_compute in Same; discriminate Same.
Qed.
Print Assumptions C147_image_parameters_act_refuted.

(** What holds: these parameters, and the names of the image and of its layers, have no effect at all; without
    them a file evaluates to the same primitives and the same final state, or fails in the same way. *)
Theorem C147_image_parameters_act_partial : forall fc l,
  rmap fst (evaluate_all fc g_init (filter (fun s => negb (image_parameter s || names_something s)) l)) = rmap fst (evaluate_all fc g_init l).
Proof. exact (fun fc l => parameters_filtered fc l g_init). Qed.
Print Assumptions C147_image_parameters_act_partial.
Example C147_drops_something : (List.length (filter (fun s => negb (image_parameter s || names_something s)) (SOF (Some 1) (Some 0) :: SIN (T "top") :: SIR 90 :: whole)) = List.length whole) /\
  is_ok (evaluate_all no_centre g_init (SOF (Some 1) (Some 0) :: SIN (T "top") :: SIR 90 :: whole)) = true.
Proof. split; vm_compute; reflexivity. Qed.
