(** Format statements of Gerber files. *)
From Coq Require Import QArith Qcanon.
From Verif Require Import PyBase NumModel NumSpec GerberText GerberTextSpec FormatStmtSpec FormatStmtProofs.
Import ListNotations.
Open Scope Qc_scope.
Open Scope list_scope.

(** ** C161 *)
(** The zeros left out, the notation and the digits of x are taken from the statement, whatever else is in it. *)
Theorem C161_statement : forall fs z ab x y t, format_statement z ab x y t ->
  parse_text fs (t ++ [nl]) = Ok ([SFS z ab x], {| p_zs := z; p_fmt := x; p_abs := ab; p_units := Inch |}).
Proof. exact fs_read. Qed.
Print Assumptions C161_statement.
(** The claim: a coordinate line after it, with all digits, is read with the digits of x for x and those of y for y. *)
Definition format_claim : Prop := forall fs z ab x y t xs ys op, In op [T "D01"; T "D02"; T "D03"] -> format_statement z ab x y t -> possible x -> possible y ->
  digit_string xs -> digit_string ys -> List.length xs = (fst x + snd x)%nat -> List.length ys = (fst y + snd y)%nat ->
  exists l st, parse_text fs (t ++ nl :: T "X" ++ xs ++ T "Y" ++ ys ++ op ++ T "*" ++ [nl]) =
    Ok (l ++ [SCoord None (Some (grid (int_of xs) (snd x))) (Some (grid (int_of ys) (snd y))) None None (Some op)], st).
(** It holds if both are the same. *)
Theorem C161_coordinates_partial : forall fs z ab x t xs ys op, In op [T "D01"; T "D02"; T "D03"] -> format_statement z ab x x t -> possible x ->
  digit_string xs -> digit_string ys -> List.length xs = (fst x + snd x)%nat -> List.length ys = (fst x + snd x)%nat ->
  exists l st, parse_text fs (t ++ nl :: T "X" ++ xs ++ T "Y" ++ ys ++ op ++ T "*" ++ [nl]) =
    Ok (l ++ [SCoord None (Some (grid (int_of xs) (snd x))) (Some (grid (int_of ys) (snd x))) None None (Some op)], st).
Proof.
  intros fs z ab x t xs ys op O H X Dx Dy Lx Ly. exists [SFS z ab x]. eexists. exact (fs_then fs z ab x x t xs ys op O H X Dx Dy Lx Ly).
Qed.
Print Assumptions C161_coordinates_partial.
(** The digits of y are never looked at: 123.456 is read as 12.3456. *)
Theorem C161_y_refuted : ~ format_claim.
Proof.
  intros H. destruct (H no_files Leading true (2, 4)%nat (3, 3)%nat (T "%FSLAX24Y33*%") (T "123456") (T "123456") (T "D03")) as (l & st & E).
  - cbn. auto.
  - apply (format_parts Leading true 2 4 3 3 (T "L") (T "A") [] []); cbn; auto; try lia; constructor.
  - unfold possible. cbn. lia.
  - unfold possible. cbn. lia.
  - repeat (constructor; [cbn; auto 12|]). constructor.
  - repeat (constructor; [cbn; auto 12|]). constructor.
  - reflexivity.
  - reflexivity.
  - match type of E with ?L = _ => assert (V : match L with Ok (l, _) => match last l SEof with SCoord _ _ (Some v) _ _ _ => Some (this v) | _ => None end | Err _ => None end = Some (7716 # 625)%Q) by (vm_compute; reflexivity) end.
    rewrite E, last_last in V. vm_compute in V. discriminate V.
Qed.
Print Assumptions C161_y_refuted.

(** Sequence numbers of two digits, preparatory codes of two, draft codes of two; no zeros left out. *)
Definition long_format : text := T "%FSDIN2G02X23Y23D02M02*%".
Example C161_ex : format_statement NoSupp false (2, 3)%nat (2, 3)%nat long_format /\ possible (2, 3)%nat /\
  parse_text no_files (long_format ++ nl :: T "X01250Y10000D03*" ++ [nl]) =
  Ok ([SFS NoSupp false (2, 3)%nat; SCoord None (Some (grid 1250 3)) (Some (grid 10000 3)) None None (Some (T "D03"))], {| p_zs := NoSupp; p_fmt := (2, 3)%nat; p_abs := false; p_units := Inch |}).
Proof.
  assert (F : format_statement NoSupp false (2, 3)%nat (2, 3)%nat long_format).
  { apply (format_parts NoSupp false 2 3 2 3 (T "D") (T "I") (T "N2G02") (T "D02M02")); cbn; auto; try lia; repeat (constructor; [cbn; auto 15|]); constructor. }
  split; [exact F|]. split; [unfold possible; cbn; lia|].
  refine (fs_then no_files _ _ _ _ _ (T "01250") (T "10000") (T "D03") _ F _ _ _ _ _); try reflexivity; [cbn; auto|unfold possible; cbn; lia|..]; repeat (constructor; [cbn; auto 15|]); constructor.
Qed.
