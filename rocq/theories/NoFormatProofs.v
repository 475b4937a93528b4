(** Lemmas about Gerber files which do not state their number format. *)
From Verif Require Import PyBase NumModel NumSpec GerberText GerberTextSpec GerberTextProofs ImageParamProofs NoFormatSpec.
From Verif Require Import SplitModel Regex.
From Verif Require NumProofs.
Import ListNotations.
Open Scope list_scope.

Lemma unstated_ok : announceable unstated.
Proof. split; [discriminate|]. cbn. unfold usable_format. repeat split; lia. Qed.
Lemma after_unstated : forall l u, no_format l -> fold_left after l {| p_zs := Trailing; p_fmt := (2, 5)%nat; p_abs := true; p_units := u |} = {| p_zs := Trailing; p_fmt := (2, 5)%nat; p_abs := true; p_units := units_of u l |}.
Proof.
  induction l as [|s l IH]; intros u N; [reflexivity|]. assert (N' : no_format l) by (intros z a f J; apply (N z a f); now right).
  destruct s; cbn [fold_left after units_of p_zs p_fmt p_abs p_units]; try (now apply IH). exfalso. eapply N. left. reflexivity.
Qed.
Lemma unstated_read fs t l : depicts fs unstated 10 t l -> no_format l -> parse_text fs t = Ok (l, {| p_zs := Trailing; p_fmt := (2, 5)%nat; p_abs := true; p_units := units_of Inch l |}).
Proof.
  intros D N. unfold parse_text. rewrite parse_data_eq. unfold split_commands. rewrite (parse_data_depicts fs unstated unstated_ok _ _ _ D); [|left; split; reflexivity].
  f_equal. f_equal. exact (after_unstated l Inch N).
Qed.
Lemma unstated_written l : Forall (line_writable unstated) l -> no_format l ->
  exists t, write_file unstated l = Ok t /\ forall fs, parse_text fs t = Ok (l, {| p_zs := Trailing; p_fmt := (2, 5)%nat; p_abs := true; p_units := units_of Inch l |}).
Proof.
  intros W N. destruct (write_depicts no_files unstated unstated_ok l W) as (t & E & _). exists t. split; [exact E|]. intros fs.
  destruct (write_depicts fs unstated unstated_ok l W) as (t' & E' & D). rewrite E in E'. apply ok_inj in E'. subst t'. now apply unstated_read.
Qed.

Lemma digits_value s : digit_string s -> (List.length s <= 7)%nat -> parse_gerber_value s (2, 5)%nat Trailing = Ok (grid (int_of s * 10 ^ (7 - Z.of_nat (List.length s))) 5).
Proof.
  intros D L. destruct (NumProofs.C05_lemma 2 5 s 0 0) as [_ E]; [lia|lia|lia|exact D|exact L|]. exact E.
Qed.
Lemma digits_number s : digit_string s -> s <> [] -> number_text s.
Proof. intros D N. exists false, s. split; [reflexivity|]. split; [now apply NumProofs.digit_string_iff|]. exact N. Qed.
Lemma digits_read fs xs ys op : digit_string xs -> digit_string ys -> xs <> [] -> ys <> [] -> (List.length xs <= 7)%nat -> (List.length ys <= 7)%nat -> In op [T "D01"; T "D02"; T "D03"] ->
  parse_text fs (T "X" ++ xs ++ T "Y" ++ ys ++ op ++ T "*" ++ [nl]) =
  Ok ([SCoord None (Some (grid (int_of xs * 10 ^ (7 - Z.of_nat (List.length xs))) 5)) (Some (grid (int_of ys * 10 ^ (7 - Z.of_nat (List.length ys))) 5)) None None (Some op)], unstated).
Proof.
  intros Dx Dy Nx Ny Lx Ly O. assert (Ho : from_list operations (Some op)) by (cbn; destruct O as [<-|[<-|[<-|[]]]]; auto 10).
  replace (T "X" ++ xs ++ T "Y" ++ ys ++ op ++ T "*" ++ [nl]) with (coord_text None (Some xs) (Some ys) None None (Some op) ++ [nl]).
  2:{ unfold coord_text, field_text, opt_text. cbn [app T list_ascii_of_string]. rewrite <- !app_assoc. cbn [app]. rewrite <- !app_assoc. reflexivity. }
  apply parse_single.
  - right. apply coord_shape; [exact I|exact Ho|now apply digits_number|now apply digits_number|exact I|exact I|]. discriminate.
  - intros inc. pose proof (first_coord None (Some xs) (Some ys) None None (Some op) [] I Ho (digits_number xs Dx Nx) (digits_number ys Dy Ny) I I) as M. rewrite app_nil_r in M.
    unfold parse_step. cbn [coord_text opt_text field_text app T list_ascii_of_string] in *. change (ceq "X"%char "*"%char) with false. cbv iota. rewrite M. unfold coord_from_dict.
    change (group "x" (coord_caps None (Some xs) (Some ys) None None (Some op))) with (Some xs). change (group "y" (coord_caps None (Some xs) (Some ys) None None (Some op))) with (Some ys).
    change (group "i" (coord_caps None (Some xs) (Some ys) None None (Some op))) with (@None text). change (group "j" (coord_caps None (Some xs) (Some ys) None None (Some op))) with (@None text).
    change (group "op" (coord_caps None (Some xs) (Some ys) None None (Some op))) with (Some op). change (group "function" (coord_caps None (Some xs) (Some ys) None None (Some op))) with (@None text).
    unfold parse_opt. cbn [p_fmt p_zs pset0]. rewrite (digits_value xs Dx Lx), (digits_value ys Dy Ly). reflexivity.
Qed.
