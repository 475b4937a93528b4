(** Gerber files which do not state their number format. *)
From Coq Require Import QArith Qcanon.
From Verif Require Import PyBase NumModel NumSpec GerberText GerberTextSpec NoFormatSpec NoFormatProofs.
Import ListNotations.
Open Scope Qc_scope.
Open Scope list_scope.

(** ** C158 *)
(** A file which does not state its format is read like one with absolute coordinates of two and five digits without trailing zeros; without units
    it is in inches, and stating units changes nothing else.  Includes may nest ten levels deep as in C23. *)
Theorem C158_unstated : forall fs t l, depicts fs unstated 10 t l -> no_format l ->
  parse_text fs t = Ok (l, {| p_zs := Trailing; p_fmt := (2, 5)%nat; p_abs := true; p_units := units_of Inch l |}).
Proof. exact unstated_read. Qed.
Print Assumptions C158_unstated.
(** So a list of statements written in this format is read back without it. *)
Theorem C158_written : forall l, Forall (line_writable unstated) l -> no_format l ->
  exists t, write_file unstated l = Ok t /\ forall fs, parse_text fs t = Ok (l, {| p_zs := Trailing; p_fmt := (2, 5)%nat; p_abs := true; p_units := units_of Inch l |}).
Proof. exact unstated_written. Qed.
Print Assumptions C158_written.
(** Digits are filled up to seven with zeros on the right. *)
Theorem C158_digits : forall fs xs ys op, digit_string xs -> digit_string ys -> xs <> [] -> ys <> [] -> (List.length xs <= 7)%nat -> (List.length ys <= 7)%nat -> In op [T "D01"; T "D02"; T "D03"] ->
  parse_text fs (T "X" ++ xs ++ T "Y" ++ ys ++ op ++ T "*" ++ [nl]) =
  Ok ([SCoord None (Some (grid (int_of xs * 10 ^ (7 - Z.of_nat (List.length xs))) 5)) (Some (grid (int_of ys * 10 ^ (7 - Z.of_nat (List.length ys))) 5)) None None (Some op)], unstated).
Proof. exact digits_read. Qed.
Print Assumptions C158_digits.

Definition bare_file : list stmt := [SMO true Metric; SAD 10 (T "C") [[Q2Qc (1 # 2)]]; SAp 10 false; SCoord None (Some (Q2Qc (5 # 4))) (Some 0) None None (Some (T "D03")); SEof].
Example C158_ex : Forall (line_writable unstated) bare_file /\ no_format bare_file /\ units_of Inch bare_file = Metric /\
  write_file unstated bare_file = Ok (T "%MOMM*%" ++ nl :: T "%ADD10C,0.5*%" ++ nl :: T "D10*" ++ nl :: T "X0125Y0D03*" ++ nl :: T "M02*" ++ [nl]).
Proof.
  split; [|split; [|split; [reflexivity|vm_compute; reflexivity]]].
  - unfold bare_file. repeat match goal with |- Forall _ (_ :: _) => apply Forall_cons | |- Forall _ [] => apply Forall_nil end; apply LW_stmt.
    + apply W_units.
    + apply W_define_circle; [lia|]. repeat constructor. exists 5%Z, 1%nat, 0%nat. split; [reflexivity|apply Qc_is_canon; reflexivity].
    + apply W_aperture. lia.
    + apply W_coord; cbn; auto 10; [| |discriminate].
      * exists 125000%Z. split; [apply Qc_is_canon; reflexivity|reflexivity].
      * exists 0%Z. split; [apply Qc_is_canon; reflexivity|reflexivity].
    + apply W_eof.
  - intros z a f J. cbn in J. repeat (destruct J as [J|J]; [discriminate|]). exact J.
Qed.
Example C158_ex_digits : digit_string (T "0125") /\ digit_string (T "1") /\ int_of (T "0125") = 125%Z /\
  parse_text no_files (T "X0125Y1D03*" ++ [nl]) = Ok ([SCoord None (Some (grid 125000 5)) (Some (grid 1000000 5)) None None (Some (T "D03"))], unstated).
Proof.
  assert (A : digit_string (T "0125")) by (repeat constructor; cbn; auto 12). assert (B : digit_string (T "1")) by (repeat constructor; cbn; auto 12).
  split; [exact A|]. split; [exact B|]. split; [reflexivity|]. refine (C158_digits no_files (T "0125") (T "1") (T "D03") A B _ _ _ _ _); try discriminate; cbn; auto; lia.
Qed.
