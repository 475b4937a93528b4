(** Lemmas about format statements. *)
From Verif Require Import PyBase NumModel NumSpec GerberText GerberTextSpec GerberTextProofs ImageParamProofs NoFormatProofs FormatStmtSpec.
From Verif Require Import SplitModel Regex.
From Verif Require NumProofs.
Import ListNotations.
Open Scope list_scope.

Lemma word_all s t : word s t -> forallb (one_of s) t = true.
Proof. intros W. apply forallb_forall. intros x J. unfold word in W. rewrite Forall_forall in W. specialize (W x J). unfold one_of. now apply char_in_true. Qed.
Lemma word_inner s t : forallb inner (T s) = true -> word s t -> forallb inner t = true.
Proof. intros A W. apply forallb_forall. intros x J. unfold word in W. rewrite Forall_forall in W. rewrite forallb_forall in A. exact (A x (W x J)). Qed.
Lemma octal_ok n : (n < 8)%nat -> one_of "01234567" (octal n) = true /\ Z.to_nat (digit_val (octal n)) = n /\ inner (octal n) = true.
Proof. intros H. do 8 (destruct n as [|n]; [now vm_compute|]). lia. Qed.

Lemma first_pair a b r : one_of "01234567" a = true -> one_of "01234567" b = true -> first (Seq oct oct) ([a; b] ++ r) ([a; b], [], r).
Proof. intros A B. apply (first_seq oct oct ([a; b] ++ r) [a] [] ([b] ++ r) [b] [] r); apply first_cls; assumption. Qed.

Definition fs_caps (zs nt : text) (a b c d : nat) : caps :=
  [(T "y", [octal c; octal d]); (T "x", [octal a; octal b]); (T "notation", nt)] ++ (match zs with [] => [] | _ => [(T "zero", zs)] end) ++ [(T "param", T "FS")].
Lemma fs_match z ab a b c d zs nt m e rest :
    In (zs, z) [([], NoSupp); (T "D", NoSupp); (T "L", Leading); (T "T", Trailing)] ->
    In (nt, ab) [(T "A", true); (T "I", false)] ->
    word "NG0123456789" m -> word "DM0123456789" e -> (a < 8)%nat -> (b < 8)%nat -> (c < 8)%nat -> (d < 8)%nat ->
  re_match (param_wrap FS) (T "%FS" ++ zs ++ nt ++ m ++ T "X" ++ [octal a; octal b] ++ T "Y" ++ [octal c; octal d] ++ e ++ T "*%" ++ rest) =
  Some (fs_caps zs nt a b c d, rest).
Proof.
  intros Z N M E A B C D. apply octal_ok in A as (A & _ & _), B as (B & _ & _), C as (C & _ & _), D as (D & _ & _).
  eapply first_match. unfold param_wrap, FS. cbn [seqs].
  change (T "%FS" ++ zs ++ nt ++ m ++ T "X" ++ [octal a; octal b] ++ T "Y" ++ [octal c; octal d] ++ e ++ T "*%" ++ rest)
    with (T "%" ++ T "FS" ++ zs ++ nt ++ m ++ T "X" ++ [octal a; octal b] ++ T "Y" ++ [octal c; octal d] ++ e ++ T "*" ++ T "%" ++ rest).
  assert (P : first (Opt (G "zero" (Cls (one_of "LTD")))) (zs ++ nt ++ m ++ T "X" ++ [octal a; octal b] ++ T "Y" ++ [octal c; octal d] ++ e ++ T "*" ++ T "%" ++ rest)
    (zs, match zs with [] => [] | _ => [(T "zero", zs)] end, nt ++ m ++ T "X" ++ [octal a; octal b] ++ T "Y" ++ [octal c; octal d] ++ e ++ T "*" ++ T "%" ++ rest)).
  { destruct Z as [Z|[Z|[Z|[Z|[]]]]]; injection Z as <- <-; [apply first_opt_skip; destruct N as [N|[N|[]]]; injection N as <- <-; reflexivity|..]; apply first_opt, first_grp, first_cls; reflexivity. }
  assert (Q : first (G "notation" (Cls (one_of "AI"))) (nt ++ m ++ T "X" ++ [octal a; octal b] ++ T "Y" ++ [octal c; octal d] ++ e ++ T "*" ++ T "%" ++ rest)
    (nt, [(T "notation", nt)], m ++ T "X" ++ [octal a; octal b] ++ T "Y" ++ [octal c; octal d] ++ e ++ T "*" ++ T "%" ++ rest)).
  { destruct N as [N|[N|[]]]; injection N as <- <-; apply first_grp, first_cls; reflexivity. }
  assert (R : fs_caps zs nt a b c d = ([] ++ []) ++ ((((((([] ++ [(T "y", [octal c; octal d])]) ++ []) ++ [(T "x", [octal a; octal b])]) ++ []) ++ []) ++ [(T "notation", nt)]) ++ (match zs with [] => [] | _ => [(T "zero", zs)] end)) ++ [(T "param", T "FS")]) by (unfold fs_caps; rewrite <- ?app_assoc; reflexivity).
  rewrite <- (app_nil_r (fs_caps zs nt a b c d)), R.
  eapply first_seq; [apply first_opt, first_lit|]. eapply first_seq.
  - eapply first_seq; [apply first_grp, first_lit|]. eapply first_seq; [exact P|]. eapply first_seq; [exact Q|].
    eapply first_seq; [apply first_star; [exact (word_all _ _ M)|reflexivity]|]. eapply first_seq; [apply first_lit|].
    eapply first_seq; [apply first_grp, first_pair; assumption|].
    eapply first_seq; [apply first_lit|].
    eapply first_seq; [apply first_grp, first_pair; assumption|].
    apply first_star; [exact (word_all _ _ E)|reflexivity].
  - eapply first_seq; [apply first_lit|apply first_opt, first_lit].
Qed.
Lemma fs_fails q : Forall (fun r => re_match r (T "%FS" ++ q) = None) ([COORD_STMT; APERTURE_STMT] ++ []).
Proof. repeat constructor. Qed.
Lemma fs_step z ab x y t : format_statement z ab x y t -> forall inc st rest, parse_step inc st (t ++ rest) = Some (Ok ([SFS z ab x], mkPset z x ab (p_units st), rest)).
Proof.
  intros H. destruct H as [z ab a b c d zs nt m e Z N M E A B C D]. intros inc st rest.
  pose proof (fs_match z ab a b c d zs nt m e rest Z N M E A B C D) as F. rewrite <- !app_assoc.
  rewrite (param_step inc st [] (param_wrap FS) (map param_wrap [MO; LP; AD_CIRCLE; AD_RECT; AD_OBROUND; AD_POLY; AD_MACRO; AM; AS; IF_; IN; IP; IR; MI; OF; SF; LN]) _ _ rest eq_refl (fs_fails _) F) by (eexists; reflexivity).
  apply octal_ok in A as (_ & A & _), B as (_ & B & _).
  assert (K : fs_from_dict (fs_caps zs nt a b c d) = SFS z ab (Z.to_nat (digit_val (octal a)), Z.to_nat (digit_val (octal b))) /\ opt_is (group "param" (fs_caps zs nt a b c d)) "FS" = true).
  { destruct Z as [Z|[Z|[Z|[Z|[]]]]]; injection Z as <- <-; destruct N as [N|[N|[]]]; injection N as <- <-; split; reflexivity. }
  destruct K as [K L]. unfold param_stmt. rewrite L, K, A, B. reflexivity.
Qed.
Lemma fs_shape z ab x y t : format_statement z ab x y t -> cmd_shape t.
Proof.
  intros H. destruct H as [z ab a b c d zs nt m e Z N M E A B C D]. left.
  exists (T "FS" ++ zs ++ nt ++ m ++ T "X" ++ [octal a; octal b] ++ T "Y" ++ [octal c; octal d] ++ e ++ T "*"). split.
  - change (T "%FS") with (T "%" ++ T "FS"). change (T "*%") with (T "*" ++ T "%"). now rewrite <- !app_assoc.
  - apply octal_ok in A as (_ & _ & A), B as (_ & _ & B), C as (_ & _ & C), D as (_ & _ & D).
    rewrite !forallb_app. cbn [forallb]. rewrite A, B, C, D, (word_inner "NG0123456789" m eq_refl M), (word_inner "DM0123456789" e eq_refl E).
    destruct Z as [Z|[Z|[Z|[Z|[]]]]]; injection Z as <- <-; destruct N as [N|[N|[]]]; injection N as <- <-; reflexivity.
Qed.
Lemma fs_read fs z ab x y t : format_statement z ab x y t -> parse_text fs (t ++ [nl]) = Ok ([SFS z ab x], mkPset z x ab Inch).
Proof.
  intros H. apply parse_single; [exact (fs_shape _ _ _ _ _ H)|]. intros inc. pose proof (fs_step _ _ _ _ _ H inc pset0 []) as P. rewrite app_nil_r in P. exact P.
Qed.

Lemma full_value x z s : possible x -> digit_string s -> List.length s = (fst x + snd x)%nat -> parse_gerber_value s x z = Ok (grid (int_of s) (snd x)).
Proof.
  destruct x as [i d]. intros (I1 & D1 & P1) D L. cbn [fst snd] in *. destruct (NumProofs.C05_lemma i d s 0 0 I1 D1 P1 D) as [A B]; [lia|]. cbn [repeat app] in A, B.
  destruct z.
  - exact A.
  - rewrite B, L, Z.sub_diag, Z.pow_0_r, Z.mul_1_r. reflexivity.
  - rewrite <- A. unfold parse_gerber_value, parse_gerber_value_with. destruct (char_in "."%char s); [reflexivity|]. destruct (bad_precision (i, d)); [reflexivity|]. cbn zeta.
    assert (H0 : nohead (fun _ => true) [] -> lstrip "+"%char s = s) by (intros _; apply NumProofs.digit_string_iff in D; destruct s as [|c s]; [reflexivity|]; cbn in D |- *; apply andb_prop in D as [D _]; destruct (ceq_spec c "+"%char) as [->|]; [discriminate D|reflexivity]).
    assert (H1 : lstrip "+"%char s = s) by (apply H0; exact I). rewrite H1.
    assert (H2 : char_in "-"%char s = false).
    { destruct (char_in "-"%char s) eqn:K; [|reflexivity]. apply char_in_true in K. unfold digit_string in D. rewrite Forall_forall in D. specialize (D _ K). cbn in D. intuition discriminate. }
    rewrite H2, L, Nat.sub_diag. reflexivity.
Qed.
Lemma fs_then fs z ab x y t xs ys op : In op [T "D01"; T "D02"; T "D03"] -> format_statement z ab x y t -> possible x -> digit_string xs -> digit_string ys -> List.length xs = (fst x + snd x)%nat -> List.length ys = (fst x + snd x)%nat ->
  parse_text fs (t ++ nl :: T "X" ++ xs ++ T "Y" ++ ys ++ op ++ T "*" ++ [nl]) =
  Ok ([SFS z ab x; SCoord None (Some (grid (int_of xs) (snd x))) (Some (grid (int_of ys) (snd x))) None None (Some op)], mkPset z x ab Inch).
Proof.
  intros O H X Dx Dy Lx Ly.
  assert (Nx : xs <> []) by (intros ->; cbn in Lx; destruct X as (_ & _ & X); lia). assert (Ny : ys <> []) by (intros ->; cbn in Ly; destruct X as (_ & _ & X); lia).
  assert (Ho : from_list operations (Some op)) by (cbn; destruct O as [<-|[<-|[<-|[]]]]; auto 10).
  set (line := coord_text None (Some xs) (Some ys) None None (Some op)).
  replace (T "X" ++ xs ++ T "Y" ++ ys ++ op ++ T "*" ++ [nl]) with (line ++ [nl]).
  2:{ unfold line, coord_text, field_text, opt_text. cbn [app T list_ascii_of_string]. rewrite <- !app_assoc. cbn [app]. rewrite <- !app_assoc. reflexivity. }
  assert (S1 : cmd_shape t) by exact (fs_shape _ _ _ _ _ H).
  assert (S2 : cmd_shape line) by (right; apply coord_shape; [exact I|exact Ho|now apply digits_number|now apply digits_number|exact I|exact I|discriminate]).
  assert (P2 : forall inc, parse_step inc (mkPset z x ab Inch) line = Some (Ok ([SCoord None (Some (grid (int_of xs) (snd x))) (Some (grid (int_of ys) (snd x))) None None (Some op)], mkPset z x ab Inch, []))).
  { intros inc. pose proof (first_coord None (Some xs) (Some ys) None None (Some op) [] I Ho (digits_number xs Dx Nx) (digits_number ys Dy Ny) I I) as M. rewrite app_nil_r in M. fold line in M.
    unfold parse_step. unfold line in *. cbn [coord_text opt_text field_text app T list_ascii_of_string] in *. change (ceq "X"%char "*"%char) with false. cbv iota. rewrite M. unfold coord_from_dict.
    change (group "x" (coord_caps None (Some xs) (Some ys) None None (Some op))) with (Some xs). change (group "y" (coord_caps None (Some xs) (Some ys) None None (Some op))) with (Some ys).
    change (group "i" (coord_caps None (Some xs) (Some ys) None None (Some op))) with (@None text). change (group "j" (coord_caps None (Some xs) (Some ys) None None (Some op))) with (@None text).
    change (group "op" (coord_caps None (Some xs) (Some ys) None None (Some op))) with (Some op). change (group "function" (coord_caps None (Some xs) (Some ys) None None (Some op))) with (@None text).
    unfold parse_opt. cbn [p_fmt p_zs].  rewrite (full_value x z xs X Dx Lx), (full_value x z ys X Dy Ly). reflexivity. }
  assert (P1 : forall inc, parse_step inc pset0 t = Some (Ok ([SFS z ab x], mkPset z x ab Inch, []))).
  { intros inc. pose proof (fs_step _ _ _ _ _ H inc pset0 []) as P. rewrite app_nil_r in P. exact P. }
  unfold parse_text. rewrite parse_data_eq. unfold split_commands. destruct (split_command t true S1) as [h E1]. rewrite (E1 (line ++ [nl])). cbn [fst split_loop].
  erewrite parse_one_cmd; [|exact S1|apply P1]. destruct (split_command line h S2) as [h' E2]. rewrite (E2 []). cbn [fst split_loop].
  erewrite parse_one_cmd; [|exact S2|apply P2]. reflexivity.
Qed.
