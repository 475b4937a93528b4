(** Lemmas about drill reports. *)
From Verif Require Import PyBase QcLib NumModel NumSpec NumProofs GerberText ExcellonModel ExcellonFile ExcellonSpec ExcellonProofs ExcellonMore ToolSpec ReportModel ReportSpec.
Open Scope list_scope.
Open Scope Qc_scope.

(** ** Pieces, lines and words *)
Lemma pieces_some c s : pieces c s <> [].
Proof. destruct s as [|x s]; cbn; [discriminate|]. destruct (ceq x c); [discriminate|]. destruct (pieces c s); discriminate. Qed.
Lemma pieces_app c a b : pieces c (a ++ c :: b) = pieces c a ++ pieces c b.
Proof.
  induction a as [|x a IH]; cbn [app pieces]; [now rewrite ceq_refl|]. rewrite IH. destruct (ceq x c); [reflexivity|].
  pose proof (pieces_some c a). destruct (pieces c a) as [|p ps]; [contradiction|reflexivity].
Qed.
Definition solid (c : ascii) (w : text) : Prop := forallb (fun x => negb (ceq x c)) w = true.
Lemma pieces_solid c w : solid c w -> pieces c w = [w].
Proof.
  unfold solid. induction w as [|x w IH]; [reflexivity|]. cbn [forallb pieces]. intros H. apply andb_prop in H as [H1 H2]. rewrite (IH H2).
  now destruct (ceq x c).
Qed.
Lemma words_app a b : words_in (a ++ " "%char :: b) = words_in a ++ words_in b.
Proof. unfold words_in. now rewrite pieces_app, filter_app. Qed.
Lemma words_one w : solid " " w -> w <> [] -> words_in w = [w].
Proof. intros H N. unfold words_in. rewrite pieces_solid by exact H. destruct w; [contradiction|reflexivity]. Qed.
Lemma words_more w s : solid " " w -> w <> [] -> words_in (w ++ " "%char :: s) = w :: words_in s.
Proof. intros H N. now rewrite words_app, words_one. Qed.
Lemma words_blanks n s : words_in (repeat " "%char n ++ s) = words_in s.
Proof. induction n as [|n IH]; [reflexivity|]. cbn [repeat app]. rewrite <- IH. exact (words_app [] _). Qed.
Lemma solid_app c a b : solid c a -> solid c b -> solid c (a ++ b).
Proof. unfold solid. intros A B. now rewrite forallb_app, A, B. Qed.
Lemma solid_digits c s : all_digits s = true -> is_digit c = false -> solid c s.
Proof.
  intros H D. unfold solid. induction s as [|x s IH]; [reflexivity|]. cbn [all_digits forallb] in *. apply andb_prop in H as [H1 H2].
  rewrite digit_neq by auto. cbn. now apply IH.
Qed.

(** ** Numbers *)
Lemma fill_number n : (0 <= n)%Z -> number (fill "0" 2 (show_int n)) n /\ solid " " (fill "0" 2 (show_int n)) /\ solid nl (fill "0" 2 (show_int n)).
Proof.
  intros H. unfold fill, show_int. replace (n <? 0)%Z with false by (symmetry; apply Z.ltb_ge; lia).
  set (k := (2 - _)%nat). assert (A : all_digits (repeat "0"%char k ++ show_nat n) = true) by (rewrite all_digits_app; change (repeat "0"%char k) with (zeros k); now rewrite zeros_digits, show_nat_digits).
  split; [|split; apply solid_digits; auto]. split; [now apply digit_string_iff|]. split.
  - intros E. apply app_eq_nil in E as [_ E]. now apply (show_nat_nonempty n).
  - rewrite int_of_dval by now apply digit_string_iff. change (repeat "0"%char k) with (zeros k). rewrite dval_app, dval_zeros. rewrite dval_show_nat by lia. lia.
Qed.
Lemma hits_number n : number (show_int (Z.of_nat n)) (Z.of_nat n) /\ solid " " (show_int (Z.of_nat n)) /\ solid nl (show_int (Z.of_nat n)).
Proof.
  unfold show_int. replace (Z.of_nat n <? 0)%Z with false by (symmetry; apply Z.ltb_ge; lia).
  split; [|split; apply solid_digits; auto using show_nat_digits]. split; [apply digit_string_iff, show_nat_digits|]. split; [apply show_nat_nonempty|].
  rewrite int_of_dval by apply digit_string_iff, show_nat_digits. apply dval_show_nat. lia.
Qed.
Definition body_text (d : nat) (n : Z) : text := show_nat (n / p10 d) ++ (match d with O => [] | _ => "."%char :: dig d n end).
Lemma body_decimal d n : (0 <= n)%Z -> decimal (body_text d n) (grid n d) /\ solid " " (body_text d n) /\ solid nl (body_text d n) /\ body_text d n <> [].
Proof.
  intros H. pose proof (p10_pos d) as P. assert (H1 : (0 <= n / p10 d)%Z) by (apply Z.div_pos; lia).
  assert (N : show_nat (n / p10 d) <> []) by apply show_nat_nonempty.
  unfold body_text. destruct d as [|d].
  - rewrite app_nil_r. split; [|split; [|split]]; auto using solid_digits, show_nat_digits.
    replace (grid n 0) with (grid (int_of (show_nat (n / p10 0))) 0).
    { apply decimal_int; [apply digit_string_iff, show_nat_digits|exact N]. }
    rewrite int_of_dval by apply digit_string_iff, show_nat_digits. rewrite dval_show_nat by auto. f_equal. unfold p10. cbn. now rewrite Z.div_1_r.
  - set (k := S d) in *. assert (AD : all_digits (show_nat (n / p10 k) ++ dig k n) = true) by now rewrite all_digits_app, show_nat_digits, dig_digits.
    split; [|split; [|split]].
    + replace (grid n k) with (grid (int_of (show_nat (n / p10 k) ++ dig k n)) (List.length (dig k n))).
      { apply (decimal_point (show_nat (n / p10 k)) (dig k n)); [apply digit_string_iff, show_nat_digits|apply digit_string_iff, dig_digits|].
        intros E. apply app_eq_nil in E as [E _]. contradiction. }
      rewrite int_of_dval by now apply digit_string_iff. rewrite dval_app, dval_dig, dig_length, dval_show_nat by auto. f_equal.
      unfold p10 in *. pose proof (Z.div_mod n (10 ^ Z.of_nat k)). lia.
    + apply solid_app; [apply solid_digits; auto using show_nat_digits|]. apply (solid_app _ (T ".")); [reflexivity|apply solid_digits; auto using dig_digits].
    + apply solid_app; [apply solid_digits; auto using show_nat_digits|]. apply (solid_app _ (T ".")); [reflexivity|apply solid_digits; auto using dig_digits].
    + intros E. apply app_eq_nil in E as [E _]. contradiction.
Qed.
Definition value_text (d : nat) (v : Qc) : text := (if qclt v 0 then T "-" else []) ++ body_text d (scaled v d).
Lemma format_is w d v : format_f w d v = repeat " "%char (w - List.length (value_text d v)) ++ value_text d v.
Proof.
  assert (E : (if qclt v 0 then "-"%char :: py_fmt_f 0 d (- v) else py_fmt_f 0 d v) = value_text d v).
  { unfold value_text, scaled. rewrite <- qabs_if. destruct (qclt v 0); reflexivity. }
  unfold format_f, fill. cbn zeta. now rewrite E.
Qed.
Lemma value_rounded d v : rounded d v (value_text d v) /\ solid " " (value_text d v) /\ solid nl (value_text d v) /\ value_text d v <> [].
Proof.
  destruct (body_decimal d (scaled v d) (scaled_nonneg v d)) as (D & S1 & S2 & N). unfold value_text. split; [|split; [|split]].
  - exists (qclt v 0), (body_text d (scaled v d)), (grid (scaled v d) d). split; [reflexivity|]. split; [exact D|]. split; [apply qclt_true|]. split; [eauto|].
    pose proof (readback_close (qabs v) d) as R. rewrite grid_dec. unfold readback in R.
    assert (A : qabs (qabs v) = qabs v). { pose proof (qabs_nonneg v) as P. unfold qabs at 1. destruct (Qclt_le_dec (qabs v) 0) as [L|L]; [|reflexivity]. exfalso. apply (Qclt_not_le _ _ L P). }
    unfold scaled in R at 1. rewrite A in R. fold (scaled v d) in R. replace (is_neg (qabs v)) with false in R; [exact R|].
    symmetry. unfold is_neg. destruct (qclt (qabs v) 0) eqn:Q; [|reflexivity]. apply qclt_true in Q. exfalso. apply (Qclt_not_le _ _ Q), qabs_nonneg.
  - apply solid_app; [now destruct (qclt v 0)|exact S1].
  - apply solid_app; [now destruct (qclt v 0)|exact S2].
  - intros E. apply app_eq_nil in E as [_ E]. contradiction.
Qed.

(** ** Rows *)
Definition row_line (se : xset) (n : Z) (d : Qc) (h : nat) (l : Qc) : text :=
  T "  T" ++ fill "0" 2 (show_int n) ++ T "      " ++ format_f (fst (xs_format se)) (snd (xs_format se)) d ++
  T "     " ++ fill " " 3 (show_int (Z.of_nat h)) ++ T "     " ++ format_f 0 6 l ++ unit_text (xs_units se).
Lemma row_is se n d h l : row se n d h l = row_line se n d h l ++ [nl].
Proof. unfold row, row_line. now rewrite <- !app_assoc. Qed.
Lemma solid_blanks c n : c <> " "%char -> solid c (repeat " "%char n).
Proof.
  intros H. unfold solid. induction n as [|n IH]; [reflexivity|]. cbn [repeat forallb]. rewrite IH, andb_true_r.
  destruct (ceq " "%char c) eqn:E; [|reflexivity]. apply ceq_true in E. congruence.
Qed.
Lemma row_words se n d h l : (0 <= n)%Z -> exists num size hits len,
  words_in (row_line se n d h l) = [T "T" ++ num; size; hits; len ++ unit_name (xs_units se)] /\
  number num n /\ number hits (Z.of_nat h) /\ rounded (snd (xs_format se)) d size /\ rounded 6 l len /\ solid nl (row_line se n d h l).
Proof.
  intros H. destruct (fill_number n H) as (N1 & N2 & N3). destruct (hits_number h) as (H1 & H2 & H3).
  destruct (value_rounded (snd (xs_format se)) d) as (V1 & V2 & V3 & V4). destruct (value_rounded 6 l) as (L1 & L2 & L3 & L4).
  exists (fill "0" 2 (show_int n)), (value_text (snd (xs_format se)) d), (show_int (Z.of_nat h)), (value_text 6 l).
  split; [|split; [exact N1|split; [exact H1|split; [exact V1|split; [exact L1|]]]]].
  - unfold row_line. rewrite !format_is. unfold fill at 2.
    set (a := fill "0" 2 (show_int n)) in *. set (b := value_text (snd (xs_format se)) d) in *. set (c := show_int (Z.of_nat h)) in *. set (e := value_text 6 l) in *.
    assert (U : unit_text (xs_units se) = unit_name (xs_units se)) by now destruct (xs_units se).
    rewrite U. set (u := unit_name (xs_units se)). assert (US : solid " " u) by (subst u; now destruct (xs_units se)).
    replace (T "  T" ++ a ++ T "      " ++ (repeat " "%char (fst (xs_format se) - List.length b) ++ b) ++ T "     " ++ (repeat " "%char (3 - List.length c) ++ c) ++ T "     " ++ (repeat " "%char (0 - List.length e) ++ e) ++ u)
      with (repeat " "%char 2 ++ (T "T" ++ a) ++ " "%char :: repeat " "%char 5 ++ repeat " "%char (fst (xs_format se) - List.length b) ++ b ++ " "%char :: repeat " "%char 4 ++ repeat " "%char (3 - List.length c) ++ c ++ " "%char :: repeat " "%char 4 ++ e ++ u)
      by (cbn [repeat app T list_ascii_of_string]; repeat (rewrite <- app_assoc; cbn [app]); reflexivity).
    rewrite words_blanks, words_more; [|apply solid_app; [reflexivity|exact N2]|discriminate].
    rewrite !words_blanks, words_more by assumption. rewrite !words_blanks, words_more; [|assumption|apply H1]. rewrite words_blanks.
    rewrite words_one; [reflexivity|now apply solid_app|]. intros E. apply app_eq_nil in E as [E _]. contradiction.
  - unfold row_line. rewrite !format_is. unfold fill at 2.
    repeat (apply solid_app; try assumption; try reflexivity; try (apply solid_blanks; discriminate)). now destruct (xs_units se).
Qed.

(** ** Reports *)
Section Lengths.
Variable add : Qc -> Qc -> Qc.
Variable dist : point -> point -> Qc.
Lemma tool_row_ok f e : only_holes f -> reportable f (snd e) ->
  (forall t, nth_error (xf_store f) (snd e) = Some t -> (0 <= t_num t)%Z) ->
  exists line, tool_row add dist f e = Ok (line ++ [nl]) /\ solid nl line /\ row_for add dist f (snd e) line.
Proof.
  intros O (t & d & T1 & T2 & T3) P. unfold tool_row, tool_at, tget. rewrite T1. cbn [bind].
  rewrite (C44_lemma 0 add dist f (t_num t) O). cbn [bind]. rewrite T2.
  remember (stops (xf_store f) (t_num t) (xf_hits f)) as ps eqn:E. destruct ps as [|p ps]; [contradiction|].
  rewrite row_is.
  destruct (row_words (xf_set f) (t_num t) d (t_hits t) (polyline add dist 0 (0, 0) (p :: ps)) (P t T1)) as (num & size & hits & len & W & A & B & C & D & S).
  eexists. split; [reflexivity|]. split; [exact S|]. exists t, d, num, size, hits, len. rewrite <- E. auto 10.
Qed.
Lemma tool_row_inv f e s : tool_row add dist f e = Ok s -> (exists t d, nth_error (xf_store f) (snd e) = Some t /\ t_diam t = Some d /\ exists l, path_length Qc 0 add dist f (t_num t) = Ok (Some l)).
Proof.
  unfold tool_row, tool_at, tget. destruct (nth_error (xf_store f) (snd e)) as [t|] eqn:T1; [|discriminate]. cbn [bind].
  destruct (path_length Qc 0 add dist f (t_num t)) as [[l|]|] eqn:L; cbn [bind]; try discriminate; destruct (t_diam t) as [d|] eqn:D; try discriminate. intros _. eauto 10.
Qed.
Lemma path_only_holes s hs : forall ls ps r, path_loop Qc 0 add dist s hs ls ps = Ok r ->
  forall h, In h hs -> tool_of s h <> None /\ match h with Hit _ _ => True | _ => False end.
Proof.
  induction hs as [|h hs IH]; intros ls ps r E k I; [contradiction|]. cbn [path_loop] in E.
  destruct (tool_at s (hit_tool h)) as [t|] eqn:E1; [|discriminate]. cbn [bind] in E. destruct h as [o p|o a b x]; [|discriminate].
  destruct I as [<-|I]; [|eapply IH; eauto]. split; [|exact Logic.I]. cbn [hit_tool tool_at] in E1. unfold tool_of. destruct o as [l|]; [|discriminate]. unfold tool_at, tget in E1. now destruct (nth_error s l).
Qed.
Lemma rows_ok f : only_holes f -> forall es,
  (forall e, In e es -> reportable f (snd e)) ->
  (forall e t, In e es -> nth_error (xf_store f) (snd e) = Some t -> (0 <= t_num t)%Z) ->
  exists rows lines, mapM (tool_row add dist f) es = Ok rows /\ List.concat rows = List.concat (map (fun l => l ++ [nl]) lines) /\
    Forall (solid nl) lines /\ Forall2 (fun e line => row_for add dist f (snd e) line) es lines.
Proof.
  intros O. induction es as [|e es IH]; intros R P.
  { exists [], []. repeat split; constructor. }
  destruct (tool_row_ok f e O (R e (or_introl eq_refl)) (fun t => P e t (or_introl eq_refl))) as (line & E1 & S1 & W1).
  destruct IH as (rows & lines & E2 & C & S2 & W2); [intros; apply R; now right|intros e' t' I; apply P; now right|].
  exists ((line ++ [nl]) :: rows), (line :: lines). cbn [mapM]. rewrite E1, E2. cbn [bind]. split; [reflexivity|]. cbn [List.concat map]. rewrite C.
  split; [reflexivity|]. split; constructor; assumption.
Qed.
Lemma concat_pieces lines : Forall (solid nl) lines -> lines_in (List.concat (map (fun l => l ++ [nl]) lines)) = lines ++ [[]].
Proof.
  unfold lines_in. induction 1 as [|l ls S F IH]; [reflexivity|]. cbn [map List.concat]. rewrite <- app_assoc. cbn [app]. rewrite pieces_app, IH, pieces_solid by exact S. reflexivity.
Qed.
Lemma heading_end name se : exists h, heading name se = h ++ [nl].
Proof.
  unfold heading. eexists. match goal with |- ?a = _ => idtac end.
  repeat (rewrite app_assoc || rewrite app_comm_cons). reflexivity.
Qed.
Lemma C119_lemma name f : only_holes f -> (forall e, In e (xf_tools f) -> reportable f (snd e)) ->
  (forall e t, In e (xf_tools f) -> nth_error (xf_store f) (snd e) = Some t -> (0 <= t_num t)%Z) ->
  exists text top rows, report add dist name f = Ok text /\ lines_in text = top ++ rows ++ [[]] /\
    Forall2 (fun e line => row_for add dist f (snd e) line) (xf_tools f) rows.
Proof.
  intros O R P. destruct (rows_ok f O (xf_tools f) R P) as (rows & lines & E & C & S & W). destruct (heading_end name (xf_set f)) as (h & Hh).
  eexists (heading name (xf_set f) ++ List.concat rows), (lines_in h), lines. unfold report. rewrite E. cbn [bind]. split; [reflexivity|]. split; [|exact W].
  rewrite Hh, C, <- app_assoc. cbn [app]. unfold lines_in. rewrite pieces_app. f_equal. now apply concat_pieces.
Qed.
Lemma C119_iff_lemma name f : xf_tools f <> [] -> (forall e t, In e (xf_tools f) -> nth_error (xf_store f) (snd e) = Some t -> (0 <= t_num t)%Z) ->
  ((exists text, report add dist name f = Ok text) <-> only_holes f /\ forall e, In e (xf_tools f) -> reportable f (snd e)).
Proof.
  intros N P. split.
  - intros (text & E). unfold report in E. destruct (mapM (tool_row add dist f) (xf_tools f)) as [rows|] eqn:M; [|discriminate]. clear E.
    assert (X : forall e, In e (xf_tools f) -> exists s, tool_row add dist f e = Ok s).
    { clear N P. revert rows M. induction (xf_tools f) as [|e es IH]; intros rows M e' I; [contradiction|]. cbn [mapM] in M.
      destruct (tool_row add dist f e) as [s|] eqn:E1; [|discriminate]. cbn [bind] in M. destruct (mapM (tool_row add dist f) es) as [r|] eqn:E2; [|discriminate].
      destruct I as [<-|I]; [eauto|]. eapply IH; eauto. }
    assert (O : only_holes f).
    { destruct (xf_tools f) as [|e es]; [contradiction|]. destruct (X e (or_introl eq_refl)) as (s & E). apply tool_row_inv in E as (t & d & _ & _ & l & L).
      unfold path_length, path_lengths in L. destruct (path_loop Qc 0 add dist (xf_store f) (xf_hits f) [] []) as [r|] eqn:E; [|discriminate].
      exact (path_only_holes _ _ _ _ _ E). }
    split; [exact O|]. intros e I. destruct (X e I) as (s & E). apply tool_row_inv in E as (t & d & T1 & T2 & l & L).
    exists t, d. split; [exact T1|]. split; [exact T2|]. rewrite (C44_lemma 0 add dist f (t_num t) O) in L. intros Z. rewrite Z in L. discriminate.
  - intros (O & R). destruct (C119_lemma name f O R P) as (text & _ & _ & E & _). eauto.
Qed.

(** ** The heading *)
Definition says (text : text) (ws : list PyBase.text) : Prop := exists l, In l (lines_in text) /\ words_in l = ws.
Lemma in_lines a l b : solid nl l -> In l (lines_in (a ++ nl :: l ++ nl :: b)).
Proof. intros S. unfold lines_in. rewrite pieces_app, pieces_app, (pieces_solid nl l S). apply in_or_app. right. now left. Qed.
Lemma C120_lemma name f text : xs_notation (xf_set f) = Absolute -> xs_units (xf_set f) = Inch -> report add dist name f = Ok text ->
  (exists l, In l (lines_in text) /\ words_in l = map T ["Data"; "Mode"; "Absolute"]%string) /\
  (exists l, In l (lines_in text) /\ words_in l = map T ["Units"; "Inches"]%string).
Proof.
  intros A U E. unfold report in E. destruct (mapM (tool_row add dist f) (xf_tools f)) as [rows|]; [|discriminate]. cbn [bind] in E. assert (E' : heading name (xf_set f) ++ List.concat rows = text) by congruence. rewrite <- E'. clear E E'.
  assert (H : exists a b, heading name (xf_set f) ++ List.concat rows = a ++ nl :: T "  Data Mode         Absolute" ++ nl :: T "  Units             Inches" ++ nl :: b).
  { unfold heading. rewrite A, U. cbn [data_mode units_line].
    exists (T "=====================" ++ nl :: T "Excellon Drill Report" ++ nl :: T "=====================" ++ [nl] ++
      match name with Some f => T "NC Drill File: " ++ f ++ [nl; nl] | None => [] end ++ T "Drill File Info:" ++ nl :: T "----------------").
    eexists. repeat (rewrite <- app_assoc || rewrite <- app_comm_cons). cbn [app]. reflexivity. }
  destruct H as (a & b & ->). split.
  - exists (T "  Data Mode         Absolute"). split; [apply in_lines; reflexivity|reflexivity].
  - exists (T "  Units             Inches"). split; [|reflexivity].
    replace (a ++ nl :: T "  Data Mode         Absolute" ++ nl :: T "  Units             Inches" ++ nl :: b) with ((a ++ nl :: T "  Data Mode         Absolute") ++ nl :: T "  Units             Inches" ++ nl :: b) by (rewrite <- app_assoc; reflexivity).
    apply in_lines. reflexivity.
Qed.
End Lengths.
