From Verif Require Import PyBase QcLib NumModel NumSpec NumProofs FmtModel FmtProofs Regex GerberText GerberTextProofs MacroProofs
  ExcellonModel ExcellonFile ExcellonSpec.
Open Scope list_scope.
Open Scope Qc_scope.

(** ** Texts *)
Definition num_char (c : ascii) : bool := is_digit c || ceq c "+"%char || ceq c "-"%char || ceq c "."%char.
Definition nums (s : text) : Prop := Forall (fun c => num_char c = true) s.

Lemma nums_app a b : nums (a ++ b) <-> nums a /\ nums b.
Proof. unfold nums. apply Forall_app. Qed.
Lemma digits_nums s : digit_string s -> nums s.
Proof.
  intros H. unfold digit_string in H. induction H as [|c s Hc Hs IH]; constructor; [|exact IH].
  apply digit_in in Hc. unfold num_char. rewrite Hc. reflexivity.
Qed.
Lemma sign_nums s : nums (sign_text s).
Proof. destruct s; repeat constructor. Qed.
Lemma nums_not_in s c : nums s -> num_char c = false -> ~ In c s.
Proof. intros H E I. unfold nums in H. rewrite Forall_forall in H. rewrite (H c I) in E. discriminate. Qed.
Lemma reads_nums i d z t v : reads i d z t v -> nums t /\ t <> [].
Proof.
  intros [s ds D N L|s a b A B N]; split.
  - apply nums_app. split; [apply sign_nums|now apply digits_nums].
  - intros E. apply app_eq_nil in E as [_ E]. contradiction.
  - rewrite !nums_app. repeat split; auto using sign_nums, digits_nums. repeat constructor.
  - intros E. apply app_eq_nil in E as [_ E]. apply app_eq_nil in E as [_ E]. discriminate.
Qed.
Lemma suppression_trail : suppression ZTrail = Leading. Proof. reflexivity. Qed.

Lemma reads_parse i d z t v se : reads i d z t v -> readable i d -> xs_format se = (i, d) -> xs_zeros se = z ->
  parse_value se t = Ok v.
Proof.
  intros R (Hi & Hd & H1) F Z. unfold parse_value. rewrite F, Z. destruct R as [s ds D N L|s a b A B N].
  - pose proof (fun np nm => C05_lemma i d ds np nm Hi Hd H1 D L) as C.
    destruct s; [specialize (C 0 0)%nat|specialize (C 1 0)%nat|specialize (C 0 1)%nat]; cbn in C;
      destruct z; cbn [suppression sign_text signed app]; apply C.
  - pose proof (fun sg => C06_lemma (i, d) (suppression z) sg a b A B N) as C.
    destruct s; [apply (C None)|apply (C (Some false))|apply (C (Some true))].
Qed.

Lemma starts_with_head p c s : match p with x :: _ => x <> c | [] => False end -> starts_with p (c :: s) = false.
Proof. destruct p as [|x p]; [contradiction|]. intros H. cbn. apply ceq_false in H. now rewrite H. Qed.
Lemma text_in_absent x p s : ~ In x s -> text_in (x :: p) s = false.
Proof.
  induction s as [|c s IH]; intros H; [reflexivity|]. cbn [text_in].
  rewrite starts_with_head by (intros ->; apply H; now left). cbn. apply IH. intros I. apply H. now right.
Qed.
Lemma strip_p_all_false p s : Forall (fun c => p c = false) s -> strip_p p s = s.
Proof.
  intros H. unfold strip_p. rewrite (lstrip_p_id p s) by (destruct H; auto). unfold rstrip_p.
  rewrite lstrip_p_id; [apply rev_involutive|].
  assert (R : Forall (fun c => p c = false) (rev s)) by (apply Forall_rev; exact H). destruct R; auto.
Qed.
Lemma strip_p_head p c s : p c = true -> Forall (fun c => p c = false) s -> strip_p p (c :: s) = s.
Proof. intros H F. unfold strip_p. cbn [lstrip_p]. rewrite H. fold (strip_p p s). now apply strip_p_all_false. Qed.
Lemma strip_nospace s : Forall (fun c => is_space c = false) s -> strip s = s.
Proof. apply strip_p_all_false. Qed.
Lemma num_char_space c : num_char c = true -> is_space c = false.
Proof.
  unfold num_char. intros H. apply orb_prop in H as [H|H]; [apply orb_prop in H as [H|H]; [apply orb_prop in H as [H|H]|]|];
    [now apply digit_not_space|apply ceq_true in H as ->; reflexivity..].
Qed.
Lemma nums_space s : nums s -> Forall (fun c => is_space c = false) s.
Proof. apply Forall_impl, num_char_space. Qed.
Lemma nums_neq s x : nums s -> num_char x = false -> Forall (fun c => ceq x c = false) s.
Proof. intros H E. eapply Forall_impl; [|exact H]. intros c Hc. apply ceq_false. intros ->. congruence. Qed.

(** ** Coordinates *)
Lemma read_xy_both i d z tx ty x y se : reads i d z tx x -> reads i d z ty y -> readable i d -> xs_format se = (i, d) -> xs_zeros se = z ->
  read_xy se (T "X" ++ tx ++ T "Y" ++ ty) = Ok (Some x, Some y).
Proof.
  intros Rx Ry Hr F Z. destruct (reads_nums _ _ _ _ _ Rx) as [Nx _], (reads_nums _ _ _ _ _ Ry) as [Ny _].
  cbn [T list_ascii_of_string app]. unfold read_xy. rewrite ceq_refl.
  rewrite strip_p_head; [|apply ceq_refl|].
  2:{ apply Forall_app. split; [|constructor; [reflexivity|]]; apply nums_neq; auto. }
  rewrite split_on_app by (apply (nums_not_in _ _ Nx); reflexivity).
  rewrite split_on_none by (eapply Forall_impl; [|exact Ny]; intros c Hc ->; discriminate).
  rewrite (reads_parse _ _ _ _ _ se Rx Hr F Z), (reads_parse _ _ _ _ _ se Ry Hr F Z). reflexivity.
Qed.
Lemma read_xy_x i d z tx x se : reads i d z tx x -> readable i d -> xs_format se = (i, d) -> xs_zeros se = z ->
  read_xy se (T "X" ++ tx) = Ok (Some x, None).
Proof.
  intros Rx Hr F Z. destruct (reads_nums _ _ _ _ _ Rx) as [Nx _].
  cbn [T list_ascii_of_string app]. unfold read_xy. rewrite ceq_refl.
  rewrite strip_p_head; [|apply ceq_refl|apply nums_neq; auto].
  rewrite split_on_none by (eapply Forall_impl; [|exact Nx]; intros c Hc ->; discriminate).
  rewrite (reads_parse _ _ _ _ _ se Rx Hr F Z). reflexivity.
Qed.
Lemma read_xy_y i d z ty y se : reads i d z ty y -> readable i d -> xs_format se = (i, d) -> xs_zeros se = z ->
  read_xy se (T "Y" ++ ty) = Ok (None, Some y).
Proof.
  intros Ry Hr F Z. destruct (reads_nums _ _ _ _ _ Ry) as [Ny _].
  cbn [T list_ascii_of_string app]. unfold read_xy. change (ceq "Y" "X") with false. cbv iota.
  rewrite strip_p_head; [|reflexivity|].
  2:{ eapply Forall_impl; [|exact Ny]. intros c Hc. apply orb_false_intro; apply ceq_false; intros ->; discriminate. }
  rewrite (reads_parse _ _ _ _ _ se Ry Hr F Z). reflexivity.
Qed.
Lemma read_xy_says i d z tx ty x y se : field_reads i d z "X" tx x -> field_reads i d z "Y" ty y -> (x <> None \/ y <> None) ->
  readable i d -> xs_format se = (i, d) -> xs_zeros se = z -> read_xy se (tx ++ ty) = Ok (x, y).
Proof.
  intros [|tx' x' Rx] [|ty' y' Ry] N Hr F Z; cbn [app].
  - destruct N; contradiction.
  - apply (read_xy_y i d z); auto.
  - rewrite app_nil_r. apply (read_xy_x i d z); auto.
  - rewrite <- app_assoc. apply (read_xy_both i d z); auto.
Qed.

(** ** Dispatch *)
Lemma with_prev_same st : x_prev st = [] -> with_prev [] st = st.
Proof. destruct st; cbn; intros ->; reflexivity. Qed.
Lemma strip_cons c r : is_space c = false -> exists r', strip (c :: r) = c :: r'.
Proof.
  intros H. unfold strip, strip_p. cbn [lstrip_p]. rewrite H. unfold rstrip_p. cbn [rev].
  assert (G : forall s, exists s', lstrip_p is_space (s ++ [c]) = s' ++ [c]).
  { induction s as [|x s [s' IH]]; cbn [app lstrip_p]; [rewrite H; now exists []|]. destruct (is_space x); [eauto|now exists (x :: s)]. }
  destruct (G (rev r)) as [s' ->]. rewrite rev_app_distr. cbn. eauto.
Qed.

Section P.
Variable holesize : unit_ -> text -> res (option tool).
Notation pl := (parse_line holesize).

Ltac disp st E line :=
  unfold parse_line; rewrite E; cbn [app]; rewrite with_prev_same by exact E;
  try match goal with |- context [strip (T ?l)] => let x := eval cbv in (T l) in change (strip (T l)) with (strip x) end;
  let r' := fresh in
  match goal with |- context [strip (?c :: ?r)] => destruct (strip_cons c r ltac:(reflexivity)) as [r' ->] end; cbv zeta.

Lemma dispatch_xy st c r : x_prev st = [] -> c = "X"%char \/ c = "Y"%char -> ~ In "I"%char r -> ~ In "M"%char r -> ~ In "G"%char r ->
  pl st (c :: r) = coord_line (c :: r) st.
Proof.
  intros E C NI NM NG.
  assert (TI : text_in (T "INCH") (c :: r) = false) by (apply text_in_absent; intros [X|X]; [destruct C; congruence|auto]).
  assert (TM : text_in (T "METRIC") (c :: r) = false) by (apply text_in_absent; intros [X|X]; [destruct C; congruence|auto]).
  assert (TG : text_in (T "G85") (c :: r) = false) by (apply text_in_absent; intros [X|X]; [destruct C; congruence|auto]).
  destruct C as [->| ->]; disp st E (); rewrite TI, TM, TG; reflexivity.
Qed.
Lemma dispatch_t st r : x_prev st = [] -> ~ In "I"%char r -> ~ In "M"%char r ->
  pl st ("T"%char :: r) = if is_header st then tool_line ("T"%char :: r) st else select_line ("T"%char :: r) st.
Proof.
  intros E NI NM.
  assert (TI : text_in (T "INCH") ("T"%char :: r) = false) by (apply text_in_absent; intros [X|X]; [discriminate|auto]).
  assert (TM : text_in (T "METRIC") ("T"%char :: r) = false) by (apply text_in_absent; intros [X|X]; [discriminate|auto]).
  disp st E (). rewrite TI, TM. reflexivity.
Qed.
Lemma dispatch_r st r : x_prev st = [] -> is_header st = false -> ~ In "I"%char r -> ~ In "M"%char r ->
  pl st ("R"%char :: r) =
    do se <- settings_of st; do q <- read_repeat se ("R"%char :: r);
    let '(n, x, y) := q in
    repeat_hits (Z.to_nat n) (match x with Some v => v | None => 0 end) (match y with Some v => v | None => 0 end) (add_stmt (ERepeat n x y) st).
Proof.
  intros E H NI NM.
  assert (TI : text_in (T "INCH") ("R"%char :: r) = false) by (apply text_in_absent; intros [X|X]; [discriminate|auto]).
  assert (TM : text_in (T "METRIC") ("R"%char :: r) = false) by (apply text_in_absent; intros [X|X]; [discriminate|auto]).
  disp st E (). rewrite TI, TM, H. reflexivity.
Qed.
Lemma dispatch_g90 st : x_prev st = [] -> pl st (T "G90") = Ok (with_notation Absolute (add_stmt EAbs st)).
Proof. intros E. disp st E (). reflexivity. Qed.
Lemma dispatch_off st : x_prev st = [] -> pl st (T "ICI,OFF") = Ok (with_notation Absolute (add_stmt (EInc false) st)).
Proof. intros E. disp st E (). reflexivity. Qed.
Lemma dispatch_on st : x_prev st = [] -> pl st (T "ICI,ON") = Ok (with_notation Incremental (add_stmt (EInc true) st)).
Proof. intros E. disp st E (). reflexivity. Qed.
Lemma dispatch_m48 st : x_prev st = [] -> pl st (T "M48") = Ok (with_state SHeader (add_stmt EHeaderBegin st)).
Proof. intros E. disp st E (). reflexivity. Qed.
Lemma dispatch_m30 st se : x_prev st = [] -> settings_of st = Ok se -> pl st (T "M30") = Ok (add_stmt (EEnd None None) st).
Proof. intros E S. disp st E (). rewrite S. reflexivity. Qed.
Lemma dispatch_rewind st : x_prev st = [] -> x_state st = SHeader -> pl st (T "%") = Ok (with_state SDrill (add_stmt ERewind st)).
Proof. intros E S. disp st E (). cbn. rewrite S. reflexivity. Qed.
Lemma dispatch_m95 st : x_prev st = [] -> x_state st = SHeader -> pl st (T "M95") = Ok (with_state SDrill (add_stmt EHeaderEnd st)).
Proof. intros E S. disp st E (). unfold is_header. cbn. rewrite S. reflexivity. Qed.
Lemma dispatch_blank st : x_prev st = [] -> pl st [] = Ok st.
Proof. intros E. unfold parse_line. rewrite E. cbn. now rewrite with_prev_same. Qed.
End P.

(** ** Repeats *)
Lemma first_opt_cls_none (p : ascii -> bool) s : match s with c :: _ => p c = false | [] => True end -> first (Opt (Cls p)) s ([], [], s).
Proof. destruct s as [|c t]; intros H; apply first_opt_skip; cbn; [reflexivity|now rewrite H]. Qed.
Lemma head_app {P : ascii -> Prop} (a b : text) : Forall P a -> match b with c :: _ => P c | [] => True end ->
  match a ++ b with c :: _ => P c | [] => True end.
Proof. intros [|c a' H _]; auto. Qed.
Lemma digit_string_forallb ds : digit_string ds -> forallb is_digit ds = true.
Proof. intros H. now apply digit_string_iff in H. Qed.
Lemma first_signed i d z s v r : reads i d z s v -> match r with c :: _ => num_char c = false | [] => True end ->
  first signed_re (s ++ r) (s, [], r).
Proof.
  intros R Hr.
  assert (Hd : match r with c :: _ => is_digit c = false | [] => True end).
  { destruct r as [|c r]; [exact I|]. unfold num_char in Hr. now destruct (is_digit c). }
  assert (Hp : match r with c :: _ => ceq "."%char c = false | [] => True end).
  { destruct r as [|c r]; [exact I|]. apply ceq_false. intros <-. discriminate. }
  assert (G : forall sg a t, digit_string a -> match t with c :: _ => one_of "+-" c = false | [] => True end ->
     first (Opt (Cls (one_of "+-"))) (sign_text sg ++ a ++ t) (sign_text sg, [], a ++ t)).
  { intros sg a t D H. destruct sg; cbn [sign_text T list_ascii_of_string app].
    - apply first_opt_cls_none. refine (head_app (P := fun c => one_of "+-" c = false) a t _ H).
      eapply Forall_impl; [|exact D]. intros c I. apply digit_in in I. unfold one_of. apply char_in_false.
      intros [<-|[<-|[]]]; discriminate.
    - apply first_opt. now apply first_cls.
    - apply first_opt. now apply first_cls. }
  assert (Hs : match r with c :: _ => one_of "+-" c = false | [] => True end).
  { destruct r as [|c r]; [exact I|]. apply char_in_false. intros [<-|[<-|[]]]; discriminate. }
  destruct R as [sg ds D N L|sg a b A B N].
  - rewrite <- app_assoc.
    apply (first_seq _ _ _ (sign_text sg) [] (ds ++ r) ds [] r); [apply G; auto|].
    rewrite <- (app_nil_r ds) at 2. apply (first_seq _ _ _ ds [] r [] [] r).
    { apply first_star; [now apply digit_string_forallb|exact Hd]. }
    apply (first_seq _ _ _ [] [] r [] [] r); [now apply first_opt_cls_none|].
    now apply (first_star is_digit [] r).
  - rewrite <- !app_assoc.
    apply (first_seq _ _ _ (sign_text sg) [] (a ++ T "." ++ b ++ r) (a ++ T "." ++ b) [] r); [apply G; auto; reflexivity|].
    apply (first_seq _ _ _ a [] (T "." ++ b ++ r) (T "." ++ b) [] r).
    { apply first_star; [now apply digit_string_forallb|reflexivity]. }
    apply (first_seq _ _ _ (T ".") [] (b ++ r) b [] r); [apply first_opt; now apply first_cls|].
    apply first_star; [now apply digit_string_forallb|exact Hd].
Qed.
Lemma first_signed_none r : match r with c :: _ => num_char c = false | [] => True end -> first signed_re r ([], [], r).
Proof.
  intros Hr.
  apply (first_seq _ _ _ [] [] r [] [] r).
  { apply first_opt_cls_none. destruct r as [|c r]; [exact I|]. apply char_in_false. intros [<-|[<-|[]]]; discriminate. }
  assert (Hd : match r with c :: _ => is_digit c = false | [] => True end).
  { destruct r as [|c r]; [exact I|]. unfold num_char in Hr. now destruct (is_digit c). }
  apply (first_seq _ _ _ [] [] r [] [] r); [now apply (first_star is_digit [] r)|].
  apply (first_seq _ _ _ [] [] r [] [] r); [|now apply (first_star is_digit [] r)].
  apply first_opt_cls_none. destruct r as [|c r]; [exact I|]. apply ceq_false. intros <-. discriminate.
Qed.

(** The letter and the number of one delta. *)
Lemma first_delta i d z (l : string) (c : ascii) (n : text) t v r : T l = [c] -> num_char c = false -> field_reads i d z l t v ->
  match r with x :: _ => num_char x = false /\ x <> c | [] => True end ->
  exists a b, t = a ++ b /\ first (Opt (chr c)) (t ++ r) (a, [], b ++ r) /\ first (Opt (Grp n signed_re)) (b ++ r) (b, [(n, b)], r) /\
    (v = None -> b = []) /\ (forall q, v = Some q -> reads i d z b q).
Proof.
  intros E Hc F Hr. assert (Hn : match r with x :: _ => num_char x = false | [] => True end) by (destruct r; [exact I|apply Hr]).
  destruct F as [|t q R].
  - exists [], []. split; [reflexivity|]. split; [|split; [|split; [auto|discriminate]]].
    + apply first_opt_cls_none. destruct r as [|x r]; [exact I|]. apply ceq_false. intros ->. now destruct Hr.
    + apply first_opt. apply first_grp. now apply first_signed_none.
  - exists [c], t. rewrite E. split; [reflexivity|]. split; [|split; [|split; [discriminate|intros q' [= <-]; exact R]]].
    + apply first_opt. apply first_cls. apply ceq_refl.
    + apply first_opt. apply first_grp. now apply (first_signed i d z t q).
Qed.
Lemma opt_value_says i d z b v se : (v = None -> b = []) -> (forall q, v = Some q -> reads i d z b q) ->
  readable i d -> xs_format se = (i, d) -> xs_zeros se = z -> opt_value se (Some b) = Ok v.
Proof.
  intros H0 H1 Hr F Z. unfold opt_value. cbn [dflt]. destruct v as [q|]; [|rewrite H0; reflexivity].
  specialize (H1 q eq_refl). destruct b as [|c b]; [now destruct (reads_nums _ _ _ _ _ H1)|].
  now rewrite (reads_parse _ _ _ _ _ se H1 Hr F Z).
Qed.
Lemma py_int_digits ds : digit_string ds -> ds <> [] -> py_int ds = Ok (int_of ds).
Proof.
  intros D N. rewrite int_of_dval by exact D. apply digit_string_iff in D. destruct ds as [|c ds]; [contradiction|].
  unfold py_int. assert (Dc : is_digit c = true) by (cbn in D; now apply andb_prop in D).
  rewrite !(digit_neq c) by (auto; reflexivity). rewrite D. f_equal. lia.
Qed.
Lemma py_int_s_digits ds : digit_string ds -> ds <> [] -> py_int_s ds = Ok (int_of ds).
Proof. intros D N. unfold py_int_s. rewrite strip_nospace by (apply nums_space; now apply digits_nums). now apply py_int_digits. Qed.

Lemma read_repeat_says i d z n ds tx ty x y se : digit_string ds -> ds <> [] -> int_of ds = Z.of_nat n ->
  field_reads i d z "X" tx x -> field_reads i d z "Y" ty y -> readable i d -> xs_format se = (i, d) -> xs_zeros se = z ->
  read_repeat se (T "R" ++ ds ++ tx ++ ty) = Ok (Z.of_nat n, x, y).
Proof.
  intros D N En Fx Fy Hr F Z.
  assert (Hty : match ty with c :: _ => num_char c = false /\ c <> "X"%char | [] => True end) by (destruct Fy; [exact I|split; [reflexivity|discriminate]]).
  destruct (first_delta i d z "X" "X"%char (T "xdelta") tx x ty eq_refl eq_refl Fx Hty) as (xa & xb & -> & Fxa & Fxb & X0 & X1).
  destruct (first_delta i d z "Y" "Y"%char (T "ydelta") ty y [] eq_refl eq_refl Fy I) as (ya & yb & -> & Fya & Fyb & Y0 & Y1).
  rewrite (app_nil_r (ya ++ yb)) in Fya. rewrite (app_nil_r yb) in Fya, Fyb.
  assert (M : re_match repeat_re (T "R" ++ ds ++ (xa ++ xb) ++ ya ++ yb) = Some ([(T "ydelta", yb); (T "xdelta", xb); (T "rcount", ds)], [])).
  { apply first_match with (u := T "R" ++ ds ++ xa ++ xb ++ ya ++ yb).
    apply (first_seq _ _ _ (T "R") [] (ds ++ (xa ++ xb) ++ ya ++ yb) (ds ++ xa ++ xb ++ ya ++ yb) [(T "ydelta", yb); (T "xdelta", xb); (T "rcount", ds)] []); [apply first_lit|].
    apply (first_seq _ _ _ ds [(T "rcount", ds)] ((xa ++ xb) ++ ya ++ yb) (xa ++ xb ++ ya ++ yb) [(T "ydelta", yb); (T "xdelta", xb)] []).
    { apply first_grp. apply first_star; [now apply digit_string_forallb|].
      destruct (xa ++ xb) as [|c r] eqn:Ex; cbn [app].
      - destruct (ya ++ yb) as [|c r]; [exact I|]. destruct Hty as [Hc _]. unfold num_char in Hc. now destruct (is_digit c).
      - assert (c = "X"%char) as ->; [|reflexivity]. inversion Fx as [|? ? R' E1]. cbn in E1. congruence. }
    apply (first_seq _ _ _ xa [] (xb ++ ya ++ yb) (xb ++ ya ++ yb) [(T "ydelta", yb); (T "xdelta", xb)] []); [exact Fxa|].
    apply (first_seq _ _ _ xb [(T "xdelta", xb)] (ya ++ yb) (ya ++ yb) [(T "ydelta", yb)] []); [exact Fxb|].
    apply (first_seq _ _ _ ya [] yb yb [(T "ydelta", yb)] []); [exact Fya|exact Fyb]. }
  unfold read_repeat. rewrite M.
  change (group "rcount" _) with (Some ds). change (group "xdelta" _) with (Some xb). change (group "ydelta" _) with (Some yb).
  cbn [dflt]. rewrite py_int_digits by auto. cbn [bind].
  rewrite (opt_value_says i d z xb x se), (opt_value_says i d z yb y se) by auto. cbn [bind]. now rewrite En.
Qed.
Lemma read_sel_short ds : digit_string ds -> ds <> [] -> (List.length ds <= 3)%nat -> read_sel ds = Ok (int_of ds, None).
Proof.
  intros D N L. unfold read_sel. apply Nat.leb_le in L. rewrite L. now rewrite py_int_s_digits.
Qed.
Lemma read_sel_long ds cs : digit_string ds -> List.length ds = 2%nat -> digit_string cs -> (2 <= List.length cs)%nat ->
  read_sel (ds ++ cs) = Ok (int_of ds, Some (int_of cs)).
Proof.
  intros D L Dc Lc. unfold read_sel. rewrite app_length.
  replace (_ <=? 3)%nat with false by (symmetry; apply Nat.leb_gt; lia).
  rewrite <- L, firstn_app, Nat.sub_diag, firstn_all, firstn_O, app_nil_r.
  rewrite skipn_app, Nat.sub_diag, skipn_all. cbn [app skipn].
  rewrite !py_int_s_digits; auto; intros ->; cbn in *; lia.
Qed.

(** ** The store of tools and the tables *)
Lemma tget_tset_same h : forall l f t, tget h l = Some t -> tget (tset h l f) l = Some (f t).
Proof. induction h as [|x h IH]; intros [|l] f t H; try discriminate; cbn in *; [congruence|now apply IH]. Qed.
Lemma tget_tset_other h : forall l l' f, l <> l' -> tget (tset h l f) l' = tget h l'.
Proof. induction h as [|x h IH]; intros [|l] [|l'] f H; try reflexivity; try contradiction. cbn. apply IH. congruence. Qed.
Lemma tset_length h : forall l f, List.length (tset h l f) = List.length h.
Proof. induction h as [|x h IH]; intros [|l] f; cbn; auto. Qed.
Lemma tget_app_old h t l : tget h l <> None -> tget (h ++ [t]) l = tget h l.
Proof. intros H. unfold tget in *. apply nth_error_app1. now apply nth_error_Some. Qed.
Lemma tget_app_new h t : tget (h ++ [t]) (List.length h) = Some t.
Proof. unfold tget. rewrite nth_error_app2, Nat.sub_diag by lia. reflexivity. Qed.
Lemma dget_dput_same {A} k (a : A) d : dget k (dput k a d) = Some a.
Proof.
  induction d as [|[j b] d IH]; cbn; [now rewrite Z.eqb_refl|].
  destruct (Z.eqb_spec j k) as [->|E]; cbn; [now rewrite Z.eqb_refl|]. apply Z.eqb_neq in E. now rewrite E.
Qed.
Lemma dget_dput_other {A} k j (a : A) d : k <> j -> dget j (dput k a d) = dget j d.
Proof.
  intros H. induction d as [|[x b] d IH]; cbn.
  - apply Z.eqb_neq in H. now rewrite H.
  - destruct (Z.eqb_spec x k) as [->|E]; cbn.
    + destruct (Z.eqb_spec k j); [contradiction|reflexivity].
    + destruct (x =? j)%Z; [reflexivity|exact IH].
Qed.

(** ** What a line does to the tools and hits, in elementary steps *)
Definition same_core (a b : xst) : Prop :=
  x_store a = x_store b /\ x_tools a = x_tools b /\ x_ctools a = x_ctools b /\ x_ext a = x_ext b /\ x_active a = x_active b /\ x_hits a = x_hits b.

Section Ev.
Variable holesize : unit_ -> text -> res (option tool).

(** [free] allows a routed segment that is not counted. *)
Inductive ev (free : bool) : xst -> xst -> Prop :=
| ev_same a b : same_core a b -> ev free a b
| ev_trans a b c : ev free a b -> ev free b c -> ev free a c
| ev_adopt n l se a : dget n (x_tools a) = None -> dget n (x_ctools a) = Some l \/ dget n (x_ext a) = Some l ->
    ev free a (with_tools (tset (x_store a) l (with_settings se)) (dput n l (x_tools a)) a)
| ev_select n l a : dget n (x_tools a) = Some l -> ev free a (with_active (Some l) a)
| ev_none a : ev free a (with_active None a)
| ev_define t a : t_hits t = 0%nat -> ev free a (with_tools (x_store a ++ [t]) (dput (t_num t) (List.length (x_store a)) (x_tools a)) a)
| ev_plated l p a : dget l (x_tools a) <> None ->
    ev free a (with_ctools (match dget l (x_tools a) with
                            | Some k => tset (x_store a) k (fun e => match t_plated e with None => with_plated p e | Some _ => e end)
                            | None => x_store a
                            end) (x_ctools a) a)
| ev_comment u c t a : holesize u c = Ok (Some t) ->
    ev free a (with_ctools (x_store a ++ [t]) (dput (t_num t) (List.length (x_store a)) (x_ctools a)) a)
| ev_hit h l a : x_active a = Some l -> hit_tool h = Some l ->
    ev free a (with_hits (tset (x_store a) l count_hit) (x_hits a ++ [h]) a)
| ev_free h a : free = true -> (exists o p q, h = Slot o p q true) -> hit_tool h = x_active a -> ev free a (with_hits (x_store a) (x_hits a ++ [h]) a).
End Ev.

Lemma bind_ok {A B} (r : res A) (k : A -> res B) b : (do x <- r; k x) = Ok b -> exists a, r = Ok a /\ k a = Ok b.
Proof. destruct r; cbn; [eauto|discriminate]. Qed.

Section EvProofs.
Variable holesize : unit_ -> text -> res (option tool).
Notation ev := (ev holesize).
Ltac same := apply ev_same; repeat split.
Ltac ok H := let H' := fresh in rename H into H'; pose proof (ok_inj _ _ H') as H; clear H'; subst.

Lemma get_tool_ev f n st o st' : get_tool n st = Ok (o, st') -> ev f st st' /\ (forall l, o = Some l -> dget n (x_tools st') = Some l).
Proof.
  unfold get_tool. destruct (dget n (x_tools st)) as [l|] eqn:E.
  { intros H. injection H as <- <-. split; [same|]. intros l' [= <-]. exact E. }
  assert (A : forall l, dget n (x_ctools st) = Some l \/ dget n (x_ext st) = Some l ->
     (do s <- adopt n l st; Ok (Some l, s)) = Ok (o, st') -> ev f st st' /\ (forall l, o = Some l -> dget n (x_tools st') = Some l)).
  { intros l D H. apply bind_ok in H as (s & H & K). unfold adopt in H. apply bind_ok in H as (se & S & H). ok H. injection K as <- <-.
    split; [now apply ev_adopt|]. intros l' [= <-]. cbn. apply dget_dput_same. }
  destruct (dget n (x_ctools st)) as [l|] eqn:E1; [intros H; apply (A l); auto|].
  destruct (dget n (x_ext st)) as [l|] eqn:E2; [intros H; apply (A l); auto|].
  intros H. injection H as <- <-. split; [same|discriminate].
Qed.
Lemma ensure_tool_ev f st st' : ensure_tool st = Ok st' -> ev f st st'.
Proof.
  unfold ensure_tool. destruct (x_active st) as [l|] eqn:E.
  - intros H. ok H. same.
  - intros H. apply bind_ok in H as ((o & s) & H & K). ok K. cbn. destruct (get_tool_ev f _ _ _ _ H) as [G A].
    apply ev_trans with s; [exact G|]. destruct o as [l|]; [|apply ev_none]. apply (ev_select _ _ 1 l). now apply A.
Qed.
Lemma add_hit_ev f h st st' : add_hit h st = Ok st' -> hit_tool h = x_active st -> ev f st st'.
Proof. unfold add_hit. destruct (x_active st) as [l|] eqn:E; [|discriminate]. intros H K. ok H. now apply ev_hit. Qed.
Lemma repeat_hits_ev f n : forall dx dy st st', repeat_hits n dx dy st = Ok st' -> ev f st st'.
Proof.
  induction n as [|n IH]; intros dx dy st st' H; cbn [repeat_hits] in H; [ok H; same|].
  apply bind_ok in H as (s & H & K). apply IH in K. eapply ev_trans; [|exact K].
  eapply ev_trans; [|eapply add_hit_ev; [exact H|reflexivity]]. same.
Qed.
Lemma read_tool_hits se p line t : read_tool se p line = Ok t -> t_hits t = 0%nat.
Proof.
  assert (G : forall l n t0 r, set_params se l n t0 = Ok r -> t_hits (snd r) = t_hits t0).
  { induction l as [|[c v] l IH]; intros n t0 r H; cbn [set_params] in H; [ok H; reflexivity|].
    apply bind_ok in H as (q & H & K). apply IH in K. rewrite K. revert H. unfold set_param.
    repeat match goal with |- context [ceq ?a ?b] => destruct (ceq a b) end; intros H; apply bind_ok in H as (w & _ & H); ok H; reflexivity. }
  unfold read_tool. intros H. apply bind_ok in H as (r & H & K). apply G in H. destruct (fst r); [|discriminate]. ok K. exact H.
Qed.
Lemma tool_line_ev f line st st' : tool_line line st = Ok st' -> ev f st st'.
Proof.
  unfold tool_line. destruct (_ || _); intros H; [ok H; same|].
  apply bind_ok in H as (se & _ & H). apply bind_ok in H as (t & R & H). ok H. apply read_tool_hits in R.
  match goal with |- ev _ _ (add_stmt _ (with_tools (_ ++ [?x]) _ _)) => set (t' := x) end.
  assert (T' : t_hits t' = 0%nat /\ t_num t' = t_num t).
  { unfold t'. destruct (t_plated t); [auto|]. destruct (dget _ _); [|auto]. destruct (tget _ _); auto. }
  eapply ev_trans; [apply (ev_define _ _ t'); apply T'|]. same.
Qed.
Lemma select_line_ev f line st st' : select_line line st = Ok st' -> ev f st st'.
Proof.
  unfold select_line. intros H. apply bind_ok in H as ((n & c) & _ & H). cbn in H. destruct (n =? 0)%Z; [ok H; same|].
  apply bind_ok in H as ((o & s) & G & H). destruct (get_tool_ev f _ _ _ _ G) as [E A].
  assert (E0 : ev f st s) by (eapply ev_trans; [|exact E]; same).
  eapply ev_trans; [exact E0|]. destruct o as [l|]; [ok H; apply (ev_select _ _ n); now apply A|].
  apply bind_ok in H as (se & _ & H). ok H.
  set (d := match xs_units se with Inch => _ | Metric => _ end).
  eapply ev_trans; [apply (ev_define _ _ (plain_tool n d se)); reflexivity|].
  match goal with |- ev _ ?a _ => apply ev_trans with (with_active (Some (List.length (x_store s))) a) end; [|same].
  apply (ev_select _ _ n). cbn. apply dget_dput_same.
Qed.
Lemma slot_line_ev f line st st' : slot_line line st = Ok st' -> ev f st st'.
Proof.
  unfold slot_line. intros H. apply bind_ok in H as (se & _ & H). apply bind_ok in H as ((((xs & ys) & xe) & ye) & _ & H).
  match goal with H : match x_state ?a with _ => _ end = _ |- _ => set (s := a) in *; assert (E0 : ev f st s) by (unfold s; same) end.
  destruct (x_state s); try (ok H; exact E0);
    apply bind_ok in H as (s1 & E1 & H); (eapply ev_trans; [exact E0|]); (eapply ev_trans; [eapply ensure_tool_ev; exact E1|]);
    eapply add_hit_ev; [exact H|reflexivity| exact H|reflexivity].
Qed.
Lemma coord_line_ev line st st' : coord_line line st = Ok st' -> ev (x_down st) st st'.
Proof.
  unfold coord_line. intros H. apply bind_ok in H as (se & _ & H). apply bind_ok in H as (xy & _ & H).
  match goal with H : match x_state ?a with _ => _ end = _ |- _ => set (s := a) in *; assert (E0 : ev (x_down st) st s) by (unfold s; same) end.
  assert (D : x_down s = x_down st) by reflexivity. rewrite D in H.
  destruct (x_state s); try (ok H; exact E0).
  - apply bind_ok in H as (s1 & E1 & H). eapply ev_trans; [exact E0|]. eapply ev_trans; [eapply ensure_tool_ev; exact E1|].
    eapply add_hit_ev; [exact H|reflexivity].
  - apply bind_ok in H as (s1 & E1 & H). eapply ev_trans; [exact E0|]. eapply ev_trans; [eapply ensure_tool_ev; exact E1|].
    eapply add_hit_ev; [exact H|reflexivity].
  - destruct (x_down st) eqn:Ed; [|ok H; exact E0].
    apply bind_ok in H as (s1 & E1 & H). eapply ev_trans; [exact E0|]. eapply ev_trans; [eapply ensure_tool_ev; exact E1|].
    ok H. apply ev_free; [reflexivity|eauto|reflexivity].
Qed.
Lemma rout_line_ev f m line st st' : rout_line m line st = Ok st' -> ev f st st'.
Proof.
  unfold rout_line. intros H. apply bind_ok in H as (se & _ & H). apply bind_ok in H as (xy & _ & H).
  destruct m; [ok H; same|]. destruct (x_down _); [|ok H; same].
  apply bind_ok in H as (s1 & E1 & H). match type of E1 with ensure_tool ?a = _ => apply ev_trans with a; [same|] end.
  eapply ev_trans; [eapply ensure_tool_ev; exact E1|]. eapply add_hit_ev; [exact H|reflexivity].
Qed.
Lemma comment_line_ev f line st st' : comment_line holesize line st = Ok st' -> ev f st st'.
Proof.
  unfold comment_line. intros H. apply bind_ok in H as (s & H0 & H).
  assert (E0 : ev f st s).
  { destruct (text_in (T "FILE_FORMAT") _); [|ok H0; same]. apply bind_ok in H0 as (g & _ & H0). ok H0. same. }
  set (s1 := if text_in (T "TYPE=PLATED") _ then _ else s) in H. set (s2 := if text_in (T "TYPE=NON_PLATED") _ then _ else s1) in H.
  set (s3 := if text_in (T "HEADER:") _ then _ else s2) in H.
  assert (E3 : ev f st s3).
  { apply ev_trans with s; [exact E0|]. unfold s3, s2, s1. repeat match goal with |- context [if ?b then _ else _] => destruct b end; same. }
  destruct (text_in (T " Holesize ") _); [|ok H; exact E3].
  apply bind_ok in H as (se & _ & H). apply bind_ok in H as (o & Ho & H). destruct o as [t|]; [|ok H; eapply ev_trans; [exact E3|]; same].
  ok H. eapply ev_trans; [exact E3|]. apply ev_trans with (with_state SHeader s3); [same|].
  set (s4 := with_state SHeader s3). change (x_tools (with_state SHeader s3)) with (x_tools s4). change (x_store (with_state SHeader s3)) with (x_store s4).
  change (x_ctools (with_state SHeader s3)) with (x_ctools s4).
  destruct (dget (t_num t) (x_tools s4)) as [k|] eqn:Ek.
  - pose proof (ev_plated holesize f (t_num t) (t_plated t) s4 ltac:(congruence)) as P. rewrite Ek in P.
    eapply ev_trans; [exact P|]. match goal with |- ev _ ?a _ => apply ev_trans with (with_ctools (x_store a ++ [t]) (dput (t_num t) (List.length (x_store a)) (x_ctools a)) a) end.
    + exact (ev_comment holesize _ _ _ t _ Ho).
    + same.
  - exact (ev_comment holesize _ _ _ t _ Ho).
Qed.

Theorem parse_line_ev st line st' : parse_line holesize st line = Ok st' -> ev (x_down st) st st'.
Proof.
  unfold parse_line. set (L := x_prev st ++ line). cbv zeta. intros H.
  assert (E0 : ev (x_down st) st (with_prev [] st)) by same.
  assert (D0 : x_down (with_prev [] st) = x_down st) by reflexivity.
  set (s0 := with_prev [] st) in *.
  enough (ev (x_down st) s0 st') by (eapply ev_trans; eassumption). clear E0. rewrite <- D0. clear D0. clearbody s0 L. clear st.
  destruct (strip L) as [|c0 L0] eqn:EL; [ok H; same|]. rewrite <- EL in *. clear EL c0 L0.
  destruct (match L with d :: _ => ceq d ";" | [] => false end); [now apply (comment_line_ev (x_down s0)) in H|].
  destruct (starts_with (T "M48") L); [ok H; same|].
  destruct (match L with d :: _ => ceq d "%" | [] => false end); [ok H; cbn; destruct (x_state s0); same|].
  destruct (starts_with (T "M00") L && is_drill s0).
  { destruct (x_active s0) as [l|]; [|discriminate]. destruct (tget (x_store s0) l) as [t|]; [|discriminate].
    apply bind_ok in H as ((o & s) & G & H). destruct (get_tool_ev (x_down s0) _ _ _ _ G) as [E A]. ok H. cbn [fst snd].
    eapply ev_trans; [exact E|]. apply ev_trans with (add_stmt (ENext l o) s); [same|].
    destruct o as [l'|]; [|apply ev_none]. apply (ev_select _ _ (t_num t + 1)). cbn. now apply A. }
  destruct (starts_with (T "M95") L); [ok H; destruct (is_header _); same|].
  destruct (starts_with (T "M15") L); [ok H; same|].
  destruct (starts_with (T "M16") L); [ok H; same|].
  destruct (starts_with (T "M17") L); [ok H; same|].
  destruct (starts_with (T "M30") L).
  { apply bind_ok in H as (se & _ & H). apply bind_ok in H as (xy & _ & H). ok H. same. }
  destruct (starts_with (T "G00") L); [destruct (teq _ _); [ok H; same|now apply (rout_line_ev (x_down s0)) in H]|].
  destruct (starts_with (T "G01") L); [destruct (teq _ _); [ok H; same|now apply (rout_line_ev (x_down s0)) in H]|].
  destruct (starts_with (T "G05") L); [ok H; same|].
  destruct (text_in (T "INCH") L || text_in (T "METRIC") L).
  { destruct (read_unit L) as [[u z] o]. ok H. destruct o as [[a b]|]; same. }
  destruct (starts_with (T "M71") L || starts_with (T "M72") L); [ok H; same|].
  destruct (starts_with (T "ICI") L); [ok H; same|].
  destruct (starts_with (T "VER") L); [apply bind_ok in H as (n & _ & H); ok H; same|].
  destruct (starts_with (T "FMAT") L); [apply bind_ok in H as (n & _ & H); ok H; same|].
  destruct (starts_with (T "G40") L); [ok H; same|].
  destruct (starts_with (T "G41") L); [ok H; same|].
  destruct (starts_with (T "G42") L); [ok H; same|].
  destruct (starts_with (T "G90") L); [ok H; same|].
  destruct (match L with d :: _ => ceq d "F" | [] => false end); [apply bind_ok in H as (n & _ & H); ok H; same|].
  destruct (match L with d :: _ => ceq d "T" | [] => false end).
  { destruct (is_header s0); [now apply (tool_line_ev (x_down s0)) in H|now apply (select_line_ev (x_down s0)) in H]. }
  destruct (_ && negb (is_header s0)).
  { apply bind_ok in H as (se & _ & H). apply bind_ok in H as (((n & x) & y) & _ & H).
    eapply ev_trans; [|eapply repeat_hits_ev; exact H]. same. }
  destruct (_ || _); [|ok H; same].
  destruct (text_in (T "G85") L); [now apply (slot_line_ev (x_down s0)) in H|exact (coord_line_ev _ _ _ H)].
Qed.
End EvProofs.

(** ** Invariants *)
Definition dict_ok (s : list tool) (d : list (Z * tloc)) : Prop :=
  NoDup (map fst d) /\ forall n l, In (n, l) d -> exists t, tget s l = Some t /\ t_num t = n.
Record wf (st : xst) : Prop := mkWf {
  wf_tools : dict_ok (x_store st) (x_tools st);
  wf_ctools : dict_ok (x_store st) (x_ctools st);
  wf_ext : dict_ok (x_store st) (x_ext st);
  wf_active : forall l, x_active st = Some l -> tget (x_store st) l <> None;
  wf_hits : forall h l, In h (x_hits st) -> hit_tool h = Some l -> tget (x_store st) l <> None }.
(** Numbers and diameters of existing tools never change. *)
Definition grows (s s' : list tool) : Prop :=
  forall l t, tget s l = Some t -> exists t', tget s' l = Some t' /\ t_num t' = t_num t /\ t_diam t' = t_diam t.

Lemma grows_refl s : grows s s.
Proof. intros l t H. eauto. Qed.
Lemma grows_trans a b c : grows a b -> grows b c -> grows a c.
Proof. intros H K l t E. destruct (H l t E) as (t1 & E1 & N1 & D1). destruct (K l t1 E1) as (t2 & E2 & N2 & D2). exists t2. repeat split; congruence. Qed.
Lemma grows_tset s l f : (forall t, t_num (f t) = t_num t /\ t_diam (f t) = t_diam t) -> grows s (tset s l f).
Proof.
  intros Hf k t E. destruct (Nat.eq_dec l k) as [->|N].
  - exists (f t). rewrite (tget_tset_same _ _ f t E). destruct (Hf t). auto.
  - exists t. rewrite tget_tset_other by exact N. auto.
Qed.
Lemma grows_app s t : grows s (s ++ [t]).
Proof. intros l u E. exists u. rewrite tget_app_old by congruence. auto. Qed.
Lemma grows_some s s' l : grows s s' -> tget s l <> None -> tget s' l <> None.
Proof. intros G H. destruct (tget s l) as [t|] eqn:E; [|contradiction]. destruct (G l t E) as (t' & -> & _). discriminate. Qed.
Lemma dict_ok_grows s s' d : grows s s' -> dict_ok s d -> dict_ok s' d.
Proof.
  intros G [N H]. split; [exact N|]. intros n l I. destruct (H n l I) as (t & E & Et). destruct (G l t E) as (t' & E' & N' & _).
  exists t'. split; [exact E'|congruence].
Qed.
Lemma dput_keys {A} k (a : A) d x : In x (map fst (dput k a d)) <-> x = k \/ In x (map fst d).
Proof.
  induction d as [|[j b] d IH]; cbn; [intuition|]. destruct (Z.eqb_spec j k) as [->|E]; cbn; [intuition|]. rewrite IH. intuition.
Qed.
Lemma dput_nodup {A} k (a : A) d : NoDup (map fst d) -> NoDup (map fst (dput k a d)).
Proof.
  induction d as [|[j b] d IH]; intros N; cbn in *; [repeat constructor; auto|]. inversion N as [|? ? N1 N2]; subst.
  destruct (Z.eqb_spec j k) as [->|E]; cbn; [constructor; auto|]. constructor; [|auto]. rewrite dput_keys. intros [->|I]; auto.
Qed.
Lemma dput_in {A} k (a : A) d n l : In (n, l) (dput k a d) -> (n = k /\ l = a) \/ In (n, l) d.
Proof.
  induction d as [|[j b] d IH]; cbn; [intros [E|[]]; injection E as <- <-; auto|].
  destruct (Z.eqb_spec j k) as [->|E]; cbn; intros [I|I]; auto; [injection I as <- <-; auto|]. destruct (IH I); auto.
Qed.
Lemma dict_ok_put s d n l t : dict_ok s d -> tget s l = Some t -> t_num t = n -> dict_ok s (dput n l d).
Proof.
  intros [N H] E En. split; [now apply dput_nodup|]. intros k j I. apply dput_in in I as [[-> ->]|I]; [eauto|auto].
Qed.
Lemma dget_in {A} n (l : A) d : dget n d = Some l -> In (n, l) d.
Proof. induction d as [|[j b] d IH]; cbn; [discriminate|]. destruct (Z.eqb_spec j n) as [->|]; [intros [= ->]; now left|right; auto]. Qed.
Lemma in_dget {A} n (l : A) d : NoDup (map fst d) -> In (n, l) d -> dget n d = Some l.
Proof.
  induction d as [|[j b] d IH]; cbn; [contradiction|]. intros N [E|I]; inversion N as [|? ? N1 N2]; subst.
  - injection E as -> ->. now rewrite Z.eqb_refl.
  - destruct (Z.eqb_spec j n) as [->|]; [|auto]. exfalso. apply N1. apply (in_map fst) in I. exact I.
Qed.
Lemma dget_none {A} n (d : list (Z * A)) : dget n d = None <-> ~ In n (map fst d).
Proof.
  induction d as [|[j b] d IH]; cbn; [intuition|]. destruct (Z.eqb_spec j n) as [->|E]; [split; [discriminate|tauto]|].
  rewrite IH. intuition.
Qed.

Section Inv.
Variable holesize : unit_ -> text -> res (option tool).
Notation ev := (ev holesize).

Lemma ev_grows f a b : ev f a b -> grows (x_store a) (x_store b).
Proof.
  induction 1; cbn; try apply grows_refl; try apply grows_app.
  - destruct H as (-> & _). apply grows_refl.
  - eapply grows_trans; eassumption.
  - apply grows_tset. intros t. destruct t; auto.
  - destruct (dget l (x_tools a)); [|apply grows_refl]. apply grows_tset. intros t'. destruct (t_plated t'); destruct t'; auto.
  - apply grows_tset. intros t'. destruct t'; auto.
Qed.
Lemma ev_wf f a b : ev f a b -> wf a -> wf b.
Proof.
  intros E. pose proof (ev_grows _ _ _ E) as G. revert G.
  induction E; intros G W; destruct W as [Wt Wc We Wa Wh].
  - destruct H as (E1 & E2 & E3 & E4 & E5 & E6). constructor; rewrite <- ?E1, <- ?E2, <- ?E3, <- ?E4, <- ?E5, <- ?E6; auto.
  - apply IHE2; [now apply ev_grows in E2|]. apply IHE1; [now apply ev_grows in E1|]. now constructor.
  - constructor; cbn in *; try (eapply dict_ok_grows; eassumption).
    + assert (X : exists t, tget (x_store a) l = Some t /\ t_num t = n).
      { destruct H0 as [D|D]; apply dget_in in D; [now apply Wc|now apply We]. }
      destruct X as (t & E & En). destruct (G l t E) as (t' & E' & En' & _).
      apply (dict_ok_put _ _ _ _ t'); [eapply dict_ok_grows; eassumption|exact E'|congruence].
    + intros k Hk. eapply grows_some; [exact G|auto].
    + intros h k I Hk. eapply grows_some; [exact G|eauto].
  - constructor; cbn in *; auto. intros k [= <-]. apply dget_in in H. destruct Wt as [_ Wt]. destruct (Wt n l H) as (t & -> & _). discriminate.
  - constructor; cbn in *; auto. discriminate.
  - constructor; cbn in *; try (eapply dict_ok_grows; eassumption).
    + apply (dict_ok_put _ _ _ _ t); [eapply dict_ok_grows; eassumption|apply tget_app_new|reflexivity].
    + intros k Hk. eapply grows_some; [exact G|auto].
    + intros h k I Hk. eapply grows_some; [exact G|eauto].
  - constructor; cbn in *; try (eapply dict_ok_grows; eassumption).
    + intros k Hk. eapply grows_some; [exact G|auto].
    + intros h k I Hk. eapply grows_some; [exact G|eauto].
  - constructor; cbn in *; try (eapply dict_ok_grows; eassumption).
    + apply (dict_ok_put _ _ _ _ t); [eapply dict_ok_grows; eassumption|apply tget_app_new|reflexivity].
    + intros k Hk. eapply grows_some; [exact G|auto].
    + intros h k I Hk. eapply grows_some; [exact G|eauto].
  - constructor; cbn in *; try (eapply dict_ok_grows; eassumption).
    + intros k Hk. eapply grows_some; [exact G|auto].
    + intros h' k I Hk. eapply grows_some; [exact G|]. apply in_app_or in I as [I|[<-|[]]]; [eauto|].
      apply Wa. congruence.
  - constructor; cbn in *; auto. intros h' k I Hk. apply in_app_or in I as [I|[<-|[]]]; [eauto|]. apply Wa. congruence.
Qed.

(** ** Counters *)
Definition uses (l : tloc) (h : hit) : bool := match hit_tool h with Some k => Nat.eqb k l | None => false end.
Definition used (l : tloc) (hs : list hit) : nat := List.length (filter (uses l) hs).
#[local] Arguments used : simpl never.
Definition counted (st : xst) : Prop := forall l t, tget (x_store st) l = Some t -> t_hits t = used l (x_hits st).
Definition counted_le (st : xst) : Prop := forall l t, tget (x_store st) l = Some t -> (t_hits t <= used l (x_hits st))%nat.

Lemma used_snoc l hs h : used l (hs ++ [h]) = (used l hs + if uses l h then 1 else 0)%nat.
Proof. unfold used. rewrite filter_app, app_length. cbn. destruct (uses l h); reflexivity. Qed.
Lemma used_fresh st : wf st -> used (List.length (x_store st)) (x_hits st) = 0%nat.
Proof.
  intros W. unfold used. assert (E : filter (uses (List.length (x_store st))) (x_hits st) = []); [|now rewrite E].
  pose proof (wf_hits _ W) as H. induction (x_hits st) as [|h hs IH]; [reflexivity|]. cbn.
  assert (uses (List.length (x_store st)) h = false) as ->; [|apply IH; intros; eapply H; [right|]; eauto].
  unfold uses. destruct (hit_tool h) as [k|] eqn:Ek; [|reflexivity]. apply Nat.eqb_neq. intros ->.
  apply (H h _ (or_introl eq_refl) Ek). unfold tget. apply nth_error_None. lia.
Qed.
Hypothesis fresh_comment_tools : forall u c t, holesize u c = Ok (Some t) -> t_hits t = 0%nat.

(** Both invariants at once: [R] is equality, or [<=] when uncounted segments are allowed. *)
Lemma tset_hits s l f : (forall t, t_hits (f t) = t_hits t) -> forall k t, tget (tset s l f) k = Some t -> exists t0, tget s k = Some t0 /\ t_hits t = t_hits t0.
Proof.
  intros Hf k t H. destruct (Nat.eq_dec l k) as [->|N].
  - destruct (tget s k) as [t0|] eqn:E0; [|].
    + rewrite (tget_tset_same _ _ f t0 E0) in H. injection H as <-. eauto.
    + exfalso. assert (X : tget (tset s k f) k <> None) by congruence. apply nth_error_Some in X. rewrite tset_length in X.
      apply nth_error_None in E0. lia.
  - rewrite tget_tset_other in H by exact N. eauto.
Qed.
Lemma app_hits s t0 k t : tget (s ++ [t0]) k = Some t -> tget s k = Some t \/ (k = List.length s /\ t = t0).
Proof.
  intros H. destruct (Nat.lt_ge_cases k (List.length s)) as [L|L].
  - left. rewrite tget_app_old in H; [exact H|]. now apply nth_error_Some.
  - right. unfold tget in H. rewrite nth_error_app2 in H by exact L. destruct (k - List.length s)%nat as [|j] eqn:Ej.
    + cbn in H. split; [lia|congruence].
    + cbn in H. destruct j; discriminate.
Qed.
Lemma ev_counted_gen (R : nat -> nat -> Prop) f : (forall n, R 0 n -> R 0 n)%nat -> (R 0 0)%nat -> (forall a b, R a b -> R (S a) (b + 1)%nat) ->
  (f = true -> forall a b, R a b -> R a (b + 1)%nat) ->
  forall a b, ev f a b -> wf a -> (forall l t, tget (x_store a) l = Some t -> R (t_hits t) (used l (x_hits a))) ->
    (forall l t, tget (x_store b) l = Some t -> R (t_hits t) (used l (x_hits b))).
Proof.
  intros _ R0 RS RF a b E. induction E; intros W C k w Hw; cbn in *.
  - destruct H as (E1 & _ & _ & _ & _ & E6). rewrite <- E6. apply C. now rewrite E1.
  - eapply IHE2; [eapply ev_wf; eassumption|apply IHE1; auto|exact Hw].
  - destruct (tset_hits _ _ _ (fun t => eq_refl : t_hits (with_settings se t) = t_hits t) _ _ Hw) as (t0 & E0 & ->). exact (C _ _ E0).
  - exact (C _ _ Hw).
  - exact (C _ _ Hw).
  - apply app_hits in Hw as [Hw|[-> ->]]; [exact (C _ _ Hw)|]. rewrite H, used_fresh; auto.
  - destruct (dget l (x_tools a)); [|exact (C _ _ Hw)]. assert (Hf : forall e, t_hits (match t_plated e with None => with_plated p e | Some _ => e end) = t_hits e) by (intros e; destruct (t_plated e); reflexivity).
    destruct (tset_hits _ _ _ Hf _ _ Hw) as (t0 & E0 & ->). exact (C _ _ E0).
  - apply app_hits in Hw as [Hw|[-> ->]]; [exact (C _ _ Hw)|]. rewrite (fresh_comment_tools _ _ _ H), used_fresh; auto.
  - rewrite used_snoc. unfold uses at 1. rewrite H0. destruct (Nat.eqb_spec l k) as [->|N].
    + destruct (tget (x_store a) k) as [t0|] eqn:E0.
      * rewrite (tget_tset_same _ _ _ t0 E0) in Hw. injection Hw as <-. cbn. apply RS. exact (C _ _ E0).
      * exfalso. apply (wf_active _ W k H E0).
    + rewrite tget_tset_other in Hw by exact N. rewrite Nat.add_0_r. exact (C _ _ Hw).
  - rewrite used_snoc. destruct (uses k h); [|rewrite Nat.add_0_r; exact (C _ _ Hw)]. apply RF; [assumption|exact (C _ _ Hw)].
Qed.
Lemma ev_counted a b : ev false a b -> wf a -> counted a -> counted b.
Proof.
  intros E W C. unfold counted. apply (ev_counted_gen eq false) with (a := a); auto; try lia; discriminate.
Qed.
Lemma ev_counted_le f a b : ev f a b -> wf a -> counted_le a -> counted_le b.
Proof. intros E W C. unfold counted_le. apply (ev_counted_gen le f) with (a := a); auto; lia. Qed.
End Inv.

(** ** Whole files *)
Section Files.
Variable holesize : unit_ -> text -> res (option tool).
Notation ev := (ev holesize).

Lemma parse_lines_app a : forall st b, parse_lines holesize st (a ++ b) = do s <- parse_lines holesize st a; parse_lines holesize s b.
Proof. induction a as [|t a IH]; intros st b; [reflexivity|]. cbn [app parse_lines]. destruct (parse_line holesize st t); cbn [bind]; [apply IH|reflexivity]. Qed.

Lemma parse_lines_wf l : forall st st', parse_lines holesize st l = Ok st' -> wf st -> wf st' /\ grows (x_store st) (x_store st').
Proof.
  induction l as [|t l IH]; intros st st' H W; cbn [parse_lines] in H.
  - apply ok_inj in H as <-. split; [exact W|apply grows_refl].
  - apply bind_ok in H as (s & H & K). apply parse_line_ev in H. destruct (IH s st' K) as [W' G]; [eapply ev_wf; eassumption|].
    split; [exact W'|]. eapply grows_trans; [eapply ev_grows; exact H|exact G].
Qed.

Lemma ext_dict_ok (s : list tool) : forall l d k, (forall i, (i < List.length l)%nat -> tget s (k + i)%nat = nth_error l i) -> dict_ok s d ->
  dict_ok s (fold_left (fun d it => dput (t_num (snd it)) (fst it) d) (combine (seq k (List.length l)) l) d).
Proof.
  induction l as [|t l IH]; intros d k H D; [exact D|]. cbn [List.length seq combine fold_left].
  apply IH.
  - intros i Hi. replace (S k + i)%nat with (k + S i)%nat by lia. apply (H (S i)). cbn. lia.
  - cbn [fst snd]. apply (dict_ok_put _ _ _ _ t); auto. rewrite <- (Nat.add_0_r k). apply (H 0%nat). cbn. lia.
Qed.
Lemma x_start_wf se ext : wf (x_start se ext).
Proof.
  constructor; cbn; try (split; [constructor|intros ? ? []]); try discriminate; try (intros ? ? []).
  apply ext_dict_ok; [auto|]. split; [constructor|intros ? ? []].
Qed.

(** *** Without M15 the drill is never down *)
Definition prev_ok (st : xst) : Prop := x_prev st = [] \/ exists r, x_prev st = "G"%char :: r.
Ltac ok H := let H' := fresh in rename H into H'; pose proof (ok_inj _ _ H') as H; clear H'; subst.
Lemma get_tool_down n st o st' : get_tool n st = Ok (o, st') -> x_down st' = x_down st /\ x_prev st' = x_prev st.
Proof.
  assert (A : forall l, (do s <- adopt n l st; Ok (Some l, s)) = Ok (o, st') -> x_down st' = x_down st /\ x_prev st' = x_prev st).
  { intros l H. apply bind_ok in H as (s & H & K). unfold adopt in H. apply bind_ok in H as (se & S & H). ok H. injection K as <- <-. auto. }
  unfold get_tool. destruct (dget n (x_tools st)); [intros H; injection H as <- <-; auto|].
  destruct (dget n (x_ctools st)); [apply A|]. destruct (dget n (x_ext st)); [apply A|]. intros H; injection H as <- <-; auto.
Qed.
Lemma ensure_tool_down st st' : ensure_tool st = Ok st' -> x_down st' = x_down st /\ x_prev st' = x_prev st.
Proof.
  unfold ensure_tool. destruct (x_active st); [intros H; ok H; auto|]. intros H. apply bind_ok in H as ((o & s) & H & K).
  ok K. apply get_tool_down in H. exact H.
Qed.
Lemma add_hit_down h st st' : add_hit h st = Ok st' -> x_down st' = x_down st /\ x_prev st' = x_prev st.
Proof. unfold add_hit. destruct (x_active st); [|discriminate]. intros H. ok H. auto. Qed.
Lemma repeat_hits_down n : forall dx dy st st', repeat_hits n dx dy st = Ok st' -> x_down st' = x_down st /\ x_prev st' = x_prev st.
Proof.
  induction n as [|n IH]; intros dx dy st st' H; cbn [repeat_hits] in H; [ok H; auto|].
  apply bind_ok in H as (s & H & K). apply add_hit_down in H as [D P]. apply IH in K as [-> ->]. auto.
Qed.
Lemma parse_line_down st line st' : parse_line holesize st line = Ok st' -> x_down st = false -> prev_ok st -> starts_with (T "M15") line = false ->
  x_down st' = false /\ prev_ok st'.
Proof.
  intros H Hd Hp Hl.
  assert (HL : starts_with (T "M15") (x_prev st ++ line) = false) by (destruct Hp as [->|[r ->]]; [exact Hl|reflexivity]).
  revert H. unfold parse_line. set (L := x_prev st ++ line) in *. cbv zeta. intros H.
  enough (X : x_down st' = false /\ (x_prev st' = [] \/ (x_prev st' = L /\ exists r, L = "G"%char :: r))).
  { destruct X as [X [Y|[Y [r Z]]]]; split; auto; [now left|]. right. exists r. congruence. }
  assert (P0 : x_prev (with_prev [] st) = []) by reflexivity. assert (D0 : x_down (with_prev [] st) = false) by exact Hd.
  set (s0 := with_prev [] st) in *. clearbody s0 L. clear st Hd Hp Hl.
  assert (FD : forall a b, (x_down b = x_down a /\ x_prev b = x_prev a) -> x_down a = false -> x_prev a = [] -> x_down b = false /\ (x_prev b = [] \/ (x_prev b = L /\ exists r, L = "G"%char :: r))).
  { intros a b [-> ->] -> ->. auto. }
  assert (GG : forall c, starts_with ("G"%char :: c) L = true -> exists r, L = "G"%char :: r).
  { intros c E. destruct L as [|x L']; [discriminate|]. cbn in E. apply andb_prop in E as [E _]. apply ceq_true in E as <-. eauto. }
  destruct (strip L) as [|c0 L0] eqn:EL; [ok H; auto|]. rewrite <- EL in *. clear EL c0 L0.
  destruct (match L with d :: _ => ceq d ";" | [] => false end).
  { unfold comment_line in H. apply bind_ok in H as (s & H0 & H).
    assert (E0 : x_down s = false /\ x_prev s = []).
    { destruct (text_in (T "FILE_FORMAT") _); [|ok H0; auto]. apply bind_ok in H0 as (g & _ & H0). ok H0. auto. }
    set (s1 := if text_in (T "TYPE=PLATED") _ then _ else s) in H. set (s2 := if text_in (T "TYPE=NON_PLATED") _ then _ else s1) in H.
    set (s3 := if text_in (T "HEADER:") _ then _ else s2) in H.
    assert (E3 : x_down s3 = false /\ x_prev s3 = []).
    { unfold s3, s2, s1. repeat match goal with |- context [if ?b then _ else _] => destruct b end; exact E0. }
    destruct E3. destruct (text_in (T " Holesize ") _); [|ok H; auto].
    apply bind_ok in H as (se & _ & H). apply bind_ok in H as (o & _ & H). destruct o as [t|]; ok H; auto. }
  destruct (starts_with (T "M48") L); [ok H; auto|].
  destruct (match L with d :: _ => ceq d "%" | [] => false end); [ok H; cbn; destruct (x_state s0); auto|].
  destruct (starts_with (T "M00") L && is_drill s0).
  { destruct (x_active s0) as [l|]; [|discriminate]. destruct (tget (x_store s0) l) as [t|]; [|discriminate].
    apply bind_ok in H as ((o & s) & G & H). apply get_tool_down in G. ok H. cbn. apply (FD s0); auto. }
  destruct (starts_with (T "M95") L); [ok H; destruct (is_header _); auto|].
  destruct (starts_with (T "M15") L); [discriminate|].
  destruct (starts_with (T "M16") L); [ok H; auto|].
  destruct (starts_with (T "M17") L); [ok H; auto|].
  destruct (starts_with (T "M30") L).
  { apply bind_ok in H as (se & _ & H). apply bind_ok in H as (xy & _ & H). ok H. auto. }
  assert (RL : forall m, rout_line m L s0 = Ok st' -> x_down st' = false /\ (x_prev st' = [] \/ x_prev st' = L /\ (exists r : list ascii, L = "G"%char :: r))).
  { intros m K. unfold rout_line in K. apply bind_ok in K as (se & _ & K). apply bind_ok in K as (xy & _ & K).
    destruct m; [ok K; auto|]. destruct (x_down _) eqn:Ed; [cbn in Ed; congruence|ok K; auto]. }
  destruct (starts_with (T "G00") L) eqn:G0; [destruct (teq _ _); [ok H; split; [exact D0|right; split; [reflexivity|now apply GG in G0]]|now apply RL in H]|].
  destruct (starts_with (T "G01") L) eqn:G1; [destruct (teq _ _); [ok H; split; [exact D0|right; split; [reflexivity|now apply GG in G1]]|now apply RL in H]|].
  destruct (starts_with (T "G05") L); [ok H; auto|].
  destruct (text_in (T "INCH") L || text_in (T "METRIC") L).
  { destruct (read_unit L) as [[u z] o]. ok H. destruct o as [[a b]|]; auto. }
  destruct (starts_with (T "M71") L || starts_with (T "M72") L); [ok H; auto|].
  destruct (starts_with (T "ICI") L); [ok H; auto|].
  destruct (starts_with (T "VER") L); [apply bind_ok in H as (n & _ & H); ok H; auto|].
  destruct (starts_with (T "FMAT") L); [apply bind_ok in H as (n & _ & H); ok H; auto|].
  destruct (starts_with (T "G40") L); [ok H; auto|].
  destruct (starts_with (T "G41") L); [ok H; auto|].
  destruct (starts_with (T "G42") L); [ok H; auto|].
  destruct (starts_with (T "G90") L); [ok H; auto|].
  destruct (match L with d :: _ => ceq d "F" | [] => false end); [apply bind_ok in H as (n & _ & H); ok H; auto|].
  destruct (match L with d :: _ => ceq d "T" | [] => false end).
  { destruct (is_header s0).
    - unfold tool_line in H. destruct (_ || _); [ok H; auto|]. apply bind_ok in H as (se & _ & H). apply bind_ok in H as (t & _ & H). ok H. auto.
    - unfold select_line in H. apply bind_ok in H as ((n & c) & _ & H). cbn in H. destruct (n =? 0)%Z; [ok H; auto|].
      apply bind_ok in H as ((o & s) & G & H). apply get_tool_down in G. destruct o as [l|]; [ok H; apply (FD s0); auto|].
      apply bind_ok in H as (se & _ & H). ok H. apply (FD s0); auto. }
  destruct (_ && negb (is_header s0)).
  { apply bind_ok in H as (se & _ & H). apply bind_ok in H as (((n & x) & y) & _ & H). apply repeat_hits_down in H. apply (FD s0); auto. }
  destruct (_ || _); [|ok H; auto].
  destruct (text_in (T "G85") L).
  - unfold slot_line in H. apply bind_ok in H as (se & _ & H). apply bind_ok in H as ((((xs & ys) & xe) & ye) & _ & H).
    match goal with H : match x_state ?a with _ => _ end = _ |- _ => set (s := a) in *; assert (E0 : x_down s = false /\ x_prev s = []) by (split; [exact D0|exact P0]) end.
    destruct E0 as [E0 E1]. destruct (x_state s); try (ok H; auto);
      apply bind_ok in H as (s1 & F1 & H); apply ensure_tool_down in F1; apply add_hit_down in H; (apply (FD s1); [exact H|destruct F1; congruence..]).
  - unfold coord_line in H. apply bind_ok in H as (se & _ & H). apply bind_ok in H as (xy & _ & H).
    match goal with H : match x_state ?a with _ => _ end = _ |- _ => set (s := a) in *; assert (E0 : x_down s = false /\ x_prev s = []) by (split; [exact D0|exact P0]) end.
    destruct E0 as [E0 E1]. destruct (x_state s); try (ok H; auto).
    + apply bind_ok in H as (s1 & F1 & H); apply ensure_tool_down in F1; apply add_hit_down in H; (apply (FD s1); [exact H|destruct F1; congruence..]).
    + apply bind_ok in H as (s1 & F1 & H); apply ensure_tool_down in F1; apply add_hit_down in H; (apply (FD s1); [exact H|destruct F1; congruence..]).
    + rewrite E0 in H. ok H. auto.
Qed.
End Files.

(** ** C39 *)
Lemma starts_with_split p : forall s, starts_with p s = true -> exists r, s = p ++ r.
Proof.
  induction p as [|x p IH]; intros s H; [now exists s|]. destruct s as [|y s]; [discriminate|]. cbn in H.
  apply andb_prop in H as [E H]. apply ceq_true in E as ->. destruct (IH s H) as [r ->]. now exists r.
Qed.
Lemma lstrip_p_suffix p s : exists a, s = a ++ lstrip_p p s.
Proof. induction s as [|c s [a IH]]; [now exists []|]. cbn. destruct (p c); [exists (c :: a); cbn; congruence|now exists []]. Qed.
Lemma strip_sub s : exists a b, s = a ++ strip s ++ b.
Proof.
  unfold strip, strip_p, rstrip_p. destruct (lstrip_p_suffix is_space s) as [a Ea]. set (m := lstrip_p is_space s) in *.
  destruct (lstrip_p_suffix is_space (rev m)) as [b Eb]. exists a, (rev b). rewrite Ea at 1. f_equal.
  rewrite <- rev_app_distr, <- Eb. symmetry. apply rev_involutive.
Qed.
Lemma split_on_sub c s : forall w, In w (split_on c s) -> exists a b, s = a ++ w ++ b.
Proof.
  induction s as [|x s IH]; intros w I; cbn [split_on] in I.
  - destruct I as [<-|[]]. now exists [], [].
  - destruct (split_on c s) as [|v vs] eqn:E; [destruct I as [<-|[]]; now exists [], (x :: s)|].
    destruct (ceq x c).
    + destruct I as [<-|I]; [now exists [], (x :: s)|]. destruct (IH w I) as (a & b & ->). now exists (x :: a), b.
    + destruct I as [<-|I].
      * assert (H : exists b, s = v ++ b).
        { clear IH. revert v vs E. induction s as [|y s IHs]; intros v vs E; cbn [split_on] in E; [injection E as <- <-; now exists []|].
          destruct (split_on c s) as [|v' vs'] eqn:E'; [injection E as <- <-; now eexists|].
          destruct (ceq y c); injection E as <- <-; [now eexists|]. destruct (IHs v' vs' eq_refl) as [b ->]. now exists b. }
        destruct H as [b ->]. now exists [], b.
      * destruct (IH w (or_intror I)) as (a & b & ->). now exists (x :: a), b.
Qed.
Lemma lines_no_m15 data : ~ occurs (T "M15") data -> Forall (fun l => starts_with (T "M15") l = false) (lines_of data).
Proof.
  intros H. unfold lines_of. apply Forall_forall. intros l I. apply in_map_iff in I as (w & <- & I).
  destruct (starts_with (T "M15") (strip w)) eqn:E; [|reflexivity]. exfalso. apply H.
  apply starts_with_split in E as [r E]. destruct (strip_sub w) as (a & b & Ew). apply split_on_sub in I as (a' & b' & ->).
  exists (a' ++ a), (r ++ b ++ b'). rewrite Ew, E, <- !app_assoc. reflexivity.
Qed.
Lemma uses_made l hs : made_with l hs = used l hs.
Proof.
  unfold made_with, used. f_equal. apply filter_ext. intros [[k|] p|[k|] p q r]; reflexivity.
Qed.

Section C39.
Variable holesize : unit_ -> text -> res (option tool).
Hypothesis fresh : forall u c t, holesize u c = Ok (Some t) -> t_hits t = 0%nat.

Lemma parse_lines_counted l : forall st st', parse_lines holesize st l = Ok st' -> Forall (fun l => starts_with (T "M15") l = false) l ->
  x_down st = false -> prev_ok st -> wf st -> counted st -> counted st'.
Proof.
  induction l as [|t l IH]; intros st st' H F D P W C; cbn [parse_lines] in H; [now apply ok_inj in H as <-|].
  apply bind_ok in H as (s & H & K). inversion F as [|? ? F1 F2]; subst.
  destruct (parse_line_down _ _ _ _ H D P F1) as [D' P']. apply parse_line_ev in H. rewrite D in H.
  apply (IH s st' K F2 D' P'); [eapply ev_wf; eassumption|eapply ev_counted; eassumption].
Qed.
Lemma parse_lines_counted_le l : forall st st', parse_lines holesize st l = Ok st' -> wf st -> counted_le st -> counted_le st'.
Proof.
  induction l as [|t l IH]; intros st st' H W C; cbn [parse_lines] in H; [now apply ok_inj in H as <-|].
  apply bind_ok in H as (s & H & K). apply parse_line_ev in H.
  apply (IH s st' K); [eapply ev_wf; eassumption|eapply ev_counted_le; eassumption].
Qed.
(** The count table: one entry per tool. *)
Lemma hit_counts_spec s tools : dict_ok s tools -> forall c n, (forall k, In k (map fst tools) -> dget k c = None) ->
  exists c', hit_counts s tools c = Ok c' /\
    dget n c' = match dget n tools with
                | Some l => match tget s l with Some t => Some (t_hits t) | None => None end
                | None => dget n c
                end.
Proof.
  intros [N H]. induction tools as [|[k l] tools IH]; intros c n Hc; [exists c; auto|].
  cbn in N. inversion N as [|? ? N1 N2]; subst. cbn [hit_counts tool_at].
  destruct (H k l (or_introl eq_refl)) as (t & Et & En). unfold tget in Et |- *. cbn [tool_at]. fold (tget s l) in *. rewrite Et. cbn [bind].
  destruct (IH N2 (fun n' l' I => H n' l' (or_intror I)) (dput (t_num t) (t_hits t) c) n) as (c' & E' & D').
  { intros k' I. rewrite En. rewrite dget_dput_other; [apply Hc; now right|]. intros ->. contradiction. }
  exists c'. split; [exact E'|]. rewrite D'. cbn [dget]. destruct (Z.eqb_spec k n) as [->|E].
  - assert (dget n tools = None) as -> by (apply dget_none; exact N1). rewrite En, dget_dput_same.
    change (nth_error s l) with (tget s l). now rewrite Et.
  - destruct (dget n tools) as [l'|]; [reflexivity|]. rewrite dget_dput_other by congruence. reflexivity.
Qed.

Lemma parse_raw_inv se ext data f : parse_raw holesize se ext data = Ok f -> exists st,
  parse_lines holesize (x_start se ext) (lines_of data) = Ok st /\ wf st /\
  xf_hits f = x_hits st /\ xf_tools f = x_tools st /\ xf_store f = x_store st.
Proof.
  unfold parse_raw. intros H. apply bind_ok in H as (st & H & K). apply bind_ok in K as (se' & _ & K). apply ok_inj in K as <-.
  exists st. split; [exact H|]. destruct (parse_lines_wf holesize _ _ _ H (x_start_wf _ _)). auto.
Qed.
Lemma start_counted se ext : Forall (fun t => t_hits t = 0%nat) ext -> counted (x_start se ext).
Proof. intros F l t H. cbn in *. apply nth_error_In in H. rewrite Forall_forall in F. now rewrite (F t H). Qed.

Lemma C39_object se ext data f n l : Forall (fun t => t_hits t = 0%nat) ext -> ~ occurs (T "M15") data ->
  parse_raw holesize se ext data = Ok f -> In (n, l) (xf_tools f) ->
  hit_count f n = Ok (Some (made_with l (xf_hits f))).
Proof.
  intros F M H I. apply parse_raw_inv in H as (st & H & W & Eh & Et & Es).
  pose proof (parse_lines_counted _ _ _ H (lines_no_m15 _ M) eq_refl (or_introl eq_refl) (x_start_wf _ _) (start_counted se ext F)) as C.
  unfold hit_count. rewrite Et, Es, Eh in *. destruct (hit_counts_spec _ _ (wf_tools _ W) [] n) as (c & -> & D); [auto|].
  cbn [bind]. rewrite D. rewrite (in_dget n l) by (auto; apply W). destruct (wf_tools _ W) as [_ Wt]. destruct (Wt n l I) as (t & E & _).
  rewrite E, (C l t E), uses_made. reflexivity.
Qed.
Lemma made_with_numbers f n l : dict_ok (xf_store f) (xf_tools f) -> current_tools f -> In (n, l) (xf_tools f) ->
  made_with l (xf_hits f) = made_with_number (xf_store f) n (xf_hits f).
Proof.
  intros D C I. unfold made_with, made_with_number. f_equal. apply filter_ext_in. intros h Ih.
  destruct (C h Ih) as (k & j & J & E). destruct D as [N D]. destruct (D k j J) as (t & Et & En).
  assert (X : (match h with Hit (Some k) _ | Slot (Some k) _ _ _ => Nat.eqb k l | _ => false end) = Nat.eqb j l /\ tool_of (xf_store f) h = Some t).
  { destruct h; subst; auto. }
  destruct X as [-> ->]. rewrite En. destruct (Nat.eqb_spec j l) as [->|NE].
  - destruct (D n l I) as (t' & Et' & En'). rewrite Et in Et'. injection Et' as <-. rewrite <- En, En'. now rewrite Z.eqb_refl.
  - symmetry. apply Z.eqb_neq. intros ->. apply NE. apply (in_dget _ _ _ N) in I, J. congruence.
Qed.
Lemma C39_number se ext data f n : Forall (fun t => t_hits t = 0%nat) ext -> ~ occurs (T "M15") data ->
  parse_raw holesize se ext data = Ok f -> current_tools f ->
  hit_count f n = Ok (if existsb (fun p => (fst p =? n)%Z) (xf_tools f) then Some (made_with_number (xf_store f) n (xf_hits f)) else None).
Proof.
  intros F M H C. pose proof (parse_raw_inv _ _ _ _ H) as (st & _ & W & Eh & Et & Es).
  destruct (existsb _ _) eqn:E.
  - apply existsb_exists in E as ((k & l) & I & E). apply Z.eqb_eq in E. cbn in E. subst k.
    rewrite (C39_object se ext data f n l F M H I). f_equal. f_equal. apply made_with_numbers; auto. rewrite Es, Et. apply W.
  - unfold hit_count. rewrite Es, Et in *. destruct (hit_counts_spec _ _ (wf_tools _ W) [] n) as (c & -> & D); [auto|]. cbn [bind]. rewrite D.
    assert (dget n (x_tools st) = None) as ->; [|reflexivity]. apply dget_none. intros I. apply in_map_iff in I as ((k & l) & <- & I).
    assert (existsb (fun p => (fst p =? k)%Z) (x_tools st) = true); [|cbn in E; congruence]. apply existsb_exists. exists (k, l). split; [exact I|apply Z.eqb_refl].
Qed.
Lemma total_made (tools : list (Z * tloc)) hs : NoDup (map snd tools) ->
  (forall h, In h hs -> exists n l, In (n, l) tools /\ match h with Hit o _ | Slot o _ _ _ => o = Some l end) ->
  total (map (fun p => made_with (snd p) hs) tools) = List.length hs.
Proof.
  intros N. induction hs as [|h hs IH]; intros H.
  - clear H. cbn. induction tools as [|p tools IHt]; [reflexivity|]. cbn. inversion N; subst. auto.
  - specialize (IH (fun h' I => H h' (or_intror I))). destruct (H h (or_introl eq_refl)) as (n & l & I & E).
    assert (S : forall k, made_with k (h :: hs) = ((if Nat.eqb l k then 1 else 0) + made_with k hs)%nat).
    { intros k. unfold made_with. cbn. destruct h; subst; destruct (Nat.eqb l k); reflexivity. }
    assert (G : forall ts, NoDup (map snd ts) -> total (map (fun p : Z * tloc => made_with (snd p) (h :: hs)) ts) =
       ((if existsb (Nat.eqb l) (map snd ts) then 1 else 0) + total (map (fun p => made_with (snd p) hs) ts))%nat).
    { induction ts as [|p ts IHt]; intros Nt; [reflexivity|]. cbn [map] in Nt. inversion Nt as [|? ? N1 N2]; subst. cbn [map total fold_right existsb].
      fold (total (map (fun p : Z * tloc => made_with (snd p) (h :: hs)) ts)). rewrite (IHt N2), S. fold (total (map (fun p : Z * tloc => made_with (snd p) hs) ts)).
      destruct (Nat.eqb_spec l (snd p)) as [->|NE]; cbn [orb]; [|lia].
      assert (existsb (Nat.eqb (snd p)) (map snd ts) = false) as ->; [|lia].
      destruct (existsb _ _) eqn:X; [|reflexivity]. apply existsb_exists in X as (k & Ik & Ek). apply Nat.eqb_eq in Ek as <-. contradiction. }
    rewrite (G tools N), IH. cbn [List.length].
    assert (existsb (Nat.eqb l) (map snd tools) = true) as ->; [|reflexivity].
    apply existsb_exists. exists l. split; [now apply (in_map snd) in I|apply Nat.eqb_refl].
Qed.
Lemma dict_ok_locs s d : dict_ok s d -> NoDup (map snd d).
Proof.
  intros [N H]. induction d as [|[n l] d IH]; [constructor|]. cbn in *. inversion N as [|? ? N1 N2]; subst. constructor; [|apply IH; auto].
  intros I. apply in_map_iff in I as ((k & l') & E & I). cbn in E. subst l'. destruct (H n l (or_introl eq_refl)) as (t & Et & <-).
  destruct (H k l (or_intror I)) as (t' & Et' & <-). rewrite Et in Et'. injection Et' as <-. apply N1. now apply (in_map fst) in I.
Qed.
Lemma C39_total se ext data f : Forall (fun t => t_hits t = 0%nat) ext -> ~ occurs (T "M15") data ->
  parse_raw holesize se ext data = Ok f -> current_tools f ->
  exists c, mapM (fun p => hit_count f (fst p)) (xf_tools f) = Ok (map Some c) /\ total c = List.length (xf_hits f).
Proof.
  intros F M H C. exists (map (fun p => made_with (snd p) (xf_hits f)) (xf_tools f)). split.
  - assert (G : forall l, incl l (xf_tools f) -> mapM (fun p => hit_count f (fst p)) l = Ok (map Some (map (fun p => made_with (snd p) (xf_hits f)) l))).
    { induction l as [|[n j] l IH]; intros I; [reflexivity|]. cbn [mapM map fst snd].
      rewrite (C39_object se ext data f n j F M H) by (apply I; now left). cbn [bind]. rewrite IH by (intros x Hx; apply I; now right). reflexivity. }
    apply G, incl_refl.
  - apply total_made; [|exact C]. pose proof (parse_raw_inv _ _ _ _ H) as (st & _ & W & Eh & Et & Es). rewrite Et. exact (dict_ok_locs _ _ (wf_tools _ W)).
Qed.
Lemma C39_at_most se ext data f n l : Forall (fun t => t_hits t = 0%nat) ext ->
  parse_raw holesize se ext data = Ok f -> In (n, l) (xf_tools f) ->
  exists k, hit_count f n = Ok (Some k) /\ (k <= made_with l (xf_hits f))%nat.
Proof.
  intros F H I. apply parse_raw_inv in H as (st & H & W & Eh & Et & Es).
  assert (C0 : counted_le (x_start se ext)) by (intros k t E; rewrite (start_counted se ext F k t E); lia).
  pose proof (parse_lines_counted_le _ _ _ H (x_start_wf _ _) C0) as C.
  unfold hit_count. rewrite Et, Es, Eh in *. destruct (hit_counts_spec _ _ (wf_tools _ W) [] n) as (c & -> & D); [auto|].
  cbn [bind]. rewrite D. rewrite (in_dget n l) by (auto; apply W). destruct (wf_tools _ W) as [_ Wt]. destruct (Wt n l I) as (t & E & _).
  rewrite E. exists (t_hits t). split; [reflexivity|]. rewrite uses_made. apply C, E.
Qed.
End C39.
