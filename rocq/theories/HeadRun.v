From Verif Require Import PyBase QcLib NumModel NumSpec NumProofs FmtProofs Regex GerberText GerberTextProofs MacroProofs ExcellonModel ExcellonFile ExcellonSpec ExcellonProofs ExcellonRun
  ToolModel ToolSpec ToolProofs HeadSpec.
From Verif Require LayersProofs.
From Coq Require Import QArith Qcanon.
Open Scope list_scope.
Open Scope Qc_scope.

(** ** Comments *)
Lemma text_in_occurs p s : p <> [] -> text_in p s = true -> occurs p s.
Proof. intros N H. apply LayersProofs.text_in_true in H; [|exact N]. exact H. Qed.
Lemma occurs_text_in p s : p <> [] -> occurs p s -> text_in p s = true.
Proof. intros N H. apply LayersProofs.text_in_true; [exact N|exact H]. Qed.
Lemma not_occurs_text_in p s : p <> [] -> ~ occurs p s -> text_in p s = false.
Proof. intros N H. destruct (text_in p s) eqn:E; [|reflexivity]. destruct (H (text_in_occurs p s N E)). Qed.
Lemma occurs_sub p s a b : occurs p s -> occurs p (a ++ s ++ b).
Proof. intros (x & y & ->). exists (a ++ x), (y ++ b). now rewrite <- !app_assoc. Qed.
Lemma strip_sub_cons c r : is_space c = false -> exists r' b, strip (c :: r) = c :: r' /\ r = r' ++ b.
Proof.
  intros H. destruct (strip_cons c r H) as [r' E]. unfold strip, strip_p in E. cbn [lstrip_p] in E. rewrite H in E.
  assert (G : exists b, c :: r = rstrip_p is_space (c :: r) ++ b).
  { unfold rstrip_p. destruct (lstrip_p_suffix is_space (rev (c :: r))) as [a Ea]. exists (rev a). rewrite <- rev_app_distr. rewrite <- Ea. now rewrite rev_involutive. }
  destruct G as [b Eb]. rewrite E in Eb. injection Eb as Eb. exists r', b. unfold strip, strip_p. cbn [lstrip_p]. rewrite H. auto.
Qed.
Lemma remark_strip t : remark t -> remark (strip t).
Proof.
  intros [c N K]. change (T ";" ++ c) with (";"%char :: c). destruct (strip_sub_cons ";"%char c eq_refl) as (r & b & -> & ->).
  apply (a_remark r); [intros I; apply N; apply in_or_app; now left|]. intros k I O. apply (K k I). exact (occurs_sub k r [] b O).
Qed.
Lemma lstrip_semi c : exists a, c = a ++ lstrip ";"%char c.
Proof. induction c as [|x c [a IH]]; [now exists []|]. cbn [lstrip]. destruct (ceq x ";"%char); [exists (x :: a); cbn; now f_equal|now exists []]. Qed.

Section Comments.
Variable holesize : unit_ -> text -> res (option tool).
Lemma dispatch_comment st c : x_prev st = [] -> parse_line holesize st (";"%char :: c) = comment_line holesize (";"%char :: c) st.
Proof.
  intros E. unfold parse_line. rewrite E. cbn [app]. rewrite with_prev_same by exact E. destruct (strip_cons ";"%char c eq_refl) as [r ->]. reflexivity.
Qed.
Lemma remark_step st t : x_prev st = [] -> remark t -> exists c, parse_line holesize st t = Ok (add_stmt (EComment c) st) /\ text_in (T "FILE_FORMAT") c = false.
Proof.
  intros E [c N K]. change (T ";" ++ c) with (";"%char :: c). rewrite dispatch_comment by exact E. unfold comment_line.
  change (lstrip ";"%char (";"%char :: c)) with (lstrip ";"%char c). destruct (lstrip_semi c) as [a Ea]. set (c' := lstrip ";"%char c) in *.
  assert (F : forall k, In k keywords -> text_in k c' = false).
  { intros k I. apply not_occurs_text_in; [intros ->; cbn in I; intuition discriminate|]. intros O. apply (K k I). rewrite Ea. rewrite <- (app_nil_r c'). now apply occurs_sub. }
  exists c'. rewrite !F by (cbn; tauto). split; reflexivity.
Qed.
Lemma digits_no c s n : number s n -> is_digit c = false -> ~ In c s.
Proof. intros (D & _) H I. apply digit_string_iff in D. apply (NumProofs.all_digits_in _ _ D) in I. congruence. Qed.
Lemma split_single c s : ~ In c s -> split_on c s = [s].
Proof.
  induction s as [|x s IH]; intros H; [reflexivity|]. cbn [split_on]. rewrite IH by (intros I; apply H; now right).
  destruct (ceq_spec x c) as [->|]; [destruct H; now left|reflexivity].
Qed.
Lemma format_reads a b i d : number a (Z.of_nat i) -> number b (Z.of_nat d) ->
  read_format (T "FILE_FORMAT=" ++ a ++ T ":" ++ b) = Ok [Z.of_nat i; Z.of_nat d].
Proof.
  intros Na Nb. unfold read_format. change (T "FILE_FORMAT=" ++ a ++ T ":" ++ b) with (T "FILE_FORMAT" ++ "="%char :: a ++ ":"%char :: b).
  rewrite (split_on_app "="%char) by (cbn; intuition discriminate). rewrite split_single.
  2:{ intros I. apply in_app_or in I as [I|[I|I]]; [exact (digits_no "="%char _ _ Na eq_refl I)|discriminate|exact (digits_no "="%char _ _ Nb eq_refl I)]. }
  rewrite (split_on_app ":"%char) by exact (digits_no ":"%char _ _ Na eq_refl). rewrite split_single by exact (digits_no ":"%char _ _ Nb eq_refl).
  cbn [mapM]. destruct Na as (Da & Ea & Va). destruct Nb as (Db & Eb & Vb). rewrite !py_int_s_digits by assumption. cbn [bind]. now rewrite Va, Vb.
Qed.
Lemma format_step st a b i d : x_prev st = [] -> number a (Z.of_nat i) -> number b (Z.of_nat d) ->
  parse_line holesize st (T ";FILE_FORMAT=" ++ a ++ T ":" ++ b) =
    Ok (with_format [Z.of_nat i; Z.of_nat d] (add_stmt (EComment (T "FILE_FORMAT=" ++ a ++ T ":" ++ b)) st)).
Proof.
  intros E Na Nb. set (c := T "FILE_FORMAT=" ++ a ++ T ":" ++ b). change (T ";FILE_FORMAT=" ++ a ++ T ":" ++ b) with (";"%char :: c). rewrite dispatch_comment by exact E.
  unfold comment_line. change (lstrip ";"%char (";"%char :: c)) with c.
  assert (F1 : text_in (T "FILE_FORMAT") c = true) by reflexivity. rewrite F1. assert (RF : read_format c = Ok [Z.of_nat i; Z.of_nat d]) by (now apply format_reads). rewrite RF. cbn [bind].
  assert (NC : forall x, is_digit x = false -> ~ In x (T "FILE_FORMAT=:") -> ~ In x c).
  { intros x H1 H2 I. unfold c in I. apply in_app_or in I as [I|I]; [apply H2; cbn in *; tauto|]. apply in_app_or in I as [I|I]; [exact (digits_no _ _ _ Na H1 I)|].
    destruct I as [I|I]; [apply H2; subst; cbn; tauto|exact (digits_no _ _ _ Nb H1 I)]. }
  assert (F2 : text_in (T "TYPE=PLATED") c = false).
  { apply not_occurs_text_in; [discriminate|]. intros (x & y & O). apply (NC "Y"%char); [reflexivity|cbn; intuition discriminate|]. rewrite O. apply in_or_app. right. cbn. tauto. }
  assert (F3 : text_in (T "TYPE=NON_PLATED") c = false).
  { apply not_occurs_text_in; [discriminate|]. intros (x & y & O). apply (NC "Y"%char); [reflexivity|cbn; intuition discriminate|]. rewrite O. apply in_or_app. right. cbn. tauto. }
  assert (F4 : text_in (T "HEADER:") c = false) by (apply text_in_absent; apply NC; [reflexivity|cbn; intuition discriminate]).
  assert (F5 : text_in (T " Holesize ") c = false) by (apply text_in_absent; apply NC; [reflexivity|cbn; intuition discriminate]).
  rewrite F2, F3, F4, F5. reflexivity.
Qed.
End Comments.

(** ** The header *)
Lemma latest_snoc {A} n (l : list (Z * A)) k a : latest n (l ++ [(k, a)]) = if (k =? n)%Z then Some a else latest n l.
Proof. induction l as [|[j b] l IH]; cbn; [reflexivity|]. rewrite IH. destruct (k =? n)%Z; reflexivity. Qed.
(** What a dictionary of tools holds for a number: nothing, or a tool of the diameter. *)
Definition holds (s : list tool) (dct : list (Z * tloc)) (n : Z) (o : option (option Qc)) : Prop :=
  match o with
  | None => dget n dct = None
  | Some dm => exists l t, dget n dct = Some l /\ tget s l = Some t /\ t_diam t = dm
  end.
Lemma holds_grows s s' dct n o : grows s s' -> holds s dct n o -> holds s' dct n o.
Proof.
  intros G. destruct o as [dm|]; [|auto]. intros (l & t & E1 & E2 & E3). destruct (G l t E2) as (t' & E' & _ & D'). exists l, t'. repeat split; auto. congruence.
Qed.
Section Head.
Variable hs : unit_ -> text -> res (option tool).
Variables (i d : nat) (z : zkind).
Hypothesis Hr : readable i d.
Variables (u : unit_) (inc : bool) (ext : list tool).
Record head (defs : list definition) (notes : list (Z * entry)) (st : xst) : Prop := mkHead {
  g_prev : x_prev st = [];
  g_state : x_state st = SHeader;
  g_fmt : x_format st = [Z.of_nat i; Z.of_nat d];
  g_zeros : x_zeros st = z;
  g_units : x_units st = u;
  g_not : x_notation st = if inc then Incremental else Absolute;
  g_pos : x_pos st = (0, 0);
  g_down : x_down st = false;
  g_wf : wf st;
  g_act : x_active st = None;
  g_hits : x_hits st = [];
  g_tools : forall n, holds (x_store st) (x_tools st) n (option_map (fun x => param "C"%char (d_params x)) (defined n defs));
  g_ctools : forall n, holds (x_store st) (x_ctools st) n (option_map (fun e => Some (measured u e)) (latest n notes));
  g_ext : forall n, holds (x_store st) (x_ext st) n (option_map t_diam (tool_numbered n ext)) }.

(** The state after the definition of a tool. *)
Lemma head_define_eq defs notes st x line : head defs notes st -> defines i d z x line ->
  exists t', parse_line hs st line = Ok (add_stmt (ETool (List.length (x_store st))) (with_tools (x_store st ++ [t']) (dput (t_num t') (List.length (x_store st)) (x_tools st)) st)) /\
    t_num t' = d_num x /\ t_diam t' = param "C"%char (d_params x) /\
    t_plated t' = match x_plated st with
                  | Some p => Some p
                  | None => match dget (d_num x) (x_ext st) with
                            | Some l => match tget (x_store st) l with Some e => t_plated e | None => None end
                            | None => None
                            end
                  end.
Proof.
  intros S X. assert (SE := settings_fmt st i d (g_fmt _ _ _ S)). set (se := mkXset _ _ _ _) in SE.
  destruct (read_tool_says i d z Hr se (x_plated st) x line X eq_refl (g_zeros _ _ _ S)) as (t & RT & Tn & Td & Th & Tp).
  assert (CH : forall c, num_char c = false -> ~ In c tool_letters -> c <> "T"%char -> ~ In c line /\ exists r, line = "T"%char :: r).
  { destruct X as [n ds ps r Dd Nd En P]. intros c H1 H2 H3. split; [|cbn; eauto].
    cbn [T list_ascii_of_string app]. intros [I|I]; [congruence|]. apply in_app_or in I as [I|I]; [exact (nums_not_in _ _ (digits_nums _ Dd) H1 I)|].
    exact (params_chars i d z _ _ _ P H1 H2 I). }
  assert (XL : exists r, line = "T"%char :: r) by (apply (CH "I"%char); [reflexivity|cbn; intuition discriminate|discriminate]).
  destruct XL as [r ->].
  assert (NC : forall c, num_char c = false -> ~ In c tool_letters -> c <> "T"%char -> ~ In c r) by (intros c H1 H2 H3 I; apply (proj1 (CH c H1 H2 H3)); now right).
  rewrite dispatch_t; [|apply S|apply NC; [reflexivity|cbn; intuition discriminate|discriminate]..].
  assert (IH : is_header st = true) by (unfold is_header; now rewrite (g_state _ _ _ S)). rewrite IH. unfold ExcellonModel.tool_line.
  assert (CM : ~ In ","%char ("T"%char :: r)) by (apply (CH ","%char); [reflexivity|cbn; intuition discriminate|discriminate]).
  assert (C1 : text_in (T ",OFF") ("T"%char :: r) = false) by (now apply text_in_absent).
  assert (C2 : text_in (T ",ON") ("T"%char :: r) = false) by (now apply text_in_absent). rewrite C1, C2. cbn [orb].
  rewrite SE. cbn [bind]. rewrite RT. cbn [bind]. eexists. split; [reflexivity|]. rewrite <- Tp, <- Tn.
  destruct (t_plated t) as [p|] eqn:E; [auto|]. destruct (dget (t_num t) (x_ext st)) as [l|]; [|auto]. destruct (tget (x_store st) l); destruct t; cbn in *; auto.
Qed.
Lemma head_define defs notes st x line : head defs notes st -> defines i d z x line ->
  exists st', parse_line hs st line = Ok st' /\ head (defs ++ [x]) notes st'.
Proof.
  intros S X. destruct (head_define_eq defs notes st x line S X) as (t' & PL & Tn' & Td' & _).
  rewrite PL. eexists. split; [reflexivity|]. apply parse_line_ev in PL. assert (G := ev_grows _ _ _ _ PL). assert (W := ev_wf _ _ _ _ PL (g_wf _ _ _ S)).
  destruct S as [A1 A2 A3 A4 A5 A6 A7 Ad A8 A9 A10 A11 A12 A13]. constructor; auto.
  - intros n. rewrite defined_snoc, <- Tn'. cbn [x_tools add_stmt with_tools with_stmts x_store]. destruct (Z.eqb_spec (t_num t') n) as [<-|NE]; cbn [option_map holds].
    + exists (List.length (x_store st)), t'. rewrite dget_dput_same, tget_app_new. auto.
    + specialize (A11 n). apply (holds_grows _ _ _ _ _ G) in A11. revert A11. cbn [x_store add_stmt with_tools with_stmts]. unfold holds. destruct (option_map _ _); now rewrite dget_dput_other.
  - intros n. exact (holds_grows _ _ _ _ _ G (A12 n)).
  - intros n. exact (holds_grows _ _ _ _ _ G (A13 n)).
Qed.
Lemma head_remark defs notes st t : head defs notes st -> remark t -> exists st', parse_line hs st t = Ok st' /\ head defs notes st'.
Proof.
  intros S R. destruct (remark_step hs st t (g_prev _ _ _ S) R) as (c & PL & _). rewrite PL. eexists. split; [reflexivity|].
  apply parse_line_ev in PL. assert (W := ev_wf _ _ _ _ PL (g_wf _ _ _ S)). destruct S. constructor; auto.
Qed.
Lemma head_plated defs notes st t : head defs notes st -> t = T ";TYPE=PLATED" \/ t = T ";TYPE=NON_PLATED" -> exists st', parse_line hs st t = Ok st' /\ head defs notes st'.
Proof.
  intros S H. assert (PL : exists p c, parse_line hs st t = Ok (with_plating p (add_stmt (EComment c) st))).
  { destruct H as [->| ->]; cbn [T list_ascii_of_string]; rewrite dispatch_comment by apply S; eexists _, _; reflexivity. }
  destruct PL as (p & c & PL). rewrite PL. eexists. split; [reflexivity|]. apply parse_line_ev in PL. assert (W := ev_wf _ _ _ _ PL (g_wf _ _ _ S)). destruct S. constructor; auto.
Qed.
(** A hole size in a comment, as the reader of tool files finds it. *)
Lemma head_size_eq defs notes st e c : head defs notes st -> hs u c = Ok (Some (tool_for u e)) -> text_in (T " Holesize ") c = true ->
  (forall x, In x (T "FY:") -> ~ In x c) -> (match c with x :: _ => x <> ";"%char | [] => True end) ->
  let t := tool_for u e in
  parse_line hs st (";"%char :: c) =
    let h := match dget (t_num t) (x_tools st) with
             | Some l => tset (x_store st) l (fun e => match t_plated e with None => with_plated (t_plated t) e | Some _ => e end)
             | None => x_store st
             end in
    Ok (with_ctools (h ++ [t]) (dput (t_num t) (List.length h) (x_ctools st)) (with_state SHeader (add_stmt (EComment c) st))).
Proof.
  intros S H HS NC H0 t. assert (SE := settings_fmt st i d (g_fmt _ _ _ S)). set (se := mkXset _ _ _ _) in SE.
  rewrite dispatch_comment by apply S. unfold comment_line. assert (LS : lstrip ";"%char (";"%char :: c) = c).
    { cbn [lstrip]. rewrite ceq_refl. destruct c as [|x c]; [reflexivity|]. cbn [lstrip]. apply ceq_false in H0. now rewrite H0. }
    rewrite LS. assert (F1 : text_in (T "FILE_FORMAT") c = false) by (apply (text_in_absent "F"%char (T "ILE_FORMAT") c); apply NC; cbn; tauto). rewrite F1. cbn [bind].
    assert (F2 : text_in (T "TYPE=PLATED") c = false).
    { apply not_occurs_text_in; [discriminate|]. intros (x & y & O). apply (NC "Y"%char); [cbn; tauto|]. rewrite O. apply in_or_app. right. cbn. tauto. }
    assert (F3 : text_in (T "TYPE=NON_PLATED") c = false).
    { apply not_occurs_text_in; [discriminate|]. intros (x & y & O). apply (NC "Y"%char); [cbn; tauto|]. rewrite O. apply in_or_app. right. cbn. tauto. }
    assert (F4 : text_in (T "HEADER:") c = false).
    { apply not_occurs_text_in; [discriminate|]. intros (x & y & O). apply (NC ":"%char); [cbn; tauto|]. rewrite O. apply in_or_app. right. cbn. tauto. }
    rewrite F2, F3, F4, HS. change (settings_of (with_state SHeader (add_stmt (EComment c) st))) with (settings_of st). rewrite SE. cbn [bind].
    change (xs_units se) with (x_units st). rewrite (g_units _ _ _ S), H. reflexivity.
Qed.
Lemma head_size defs notes st e c : head defs notes st -> hs u c = Ok (Some (tool_for u e)) -> text_in (T " Holesize ") c = true ->
  (forall x, In x (T "FY:") -> ~ In x c) -> (match c with x :: _ => x <> ";"%char | [] => True end) ->
  exists st', parse_line hs st (";"%char :: c) = Ok st' /\ head defs (notes ++ [e]) st'.
Proof.
  intros S H HS NC H0. assert (PL := head_size_eq defs notes st e c S H HS NC H0). set (t := tool_for u e) in *. cbv zeta in PL.
  rewrite PL. cbv zeta. eexists. split; [reflexivity|]. apply parse_line_ev in PL. assert (G := ev_grows _ _ _ _ PL). assert (W := ev_wf _ _ _ _ PL (g_wf _ _ _ S)).
  destruct S as [A1 A2 A3 A4 A5 A6 A7 Ad A8 A9 A10 A11 A12 A13]. constructor; auto.
  - intros n. exact (holds_grows _ _ _ _ _ G (A11 n)).
  - intros n. destruct e as [k e]. rewrite latest_snoc. cbn [x_ctools with_ctools x_store]. change (t_num t) with k. set (h := match dget k (x_tools st) with Some _ => _ | None => _ end).
    destruct (Z.eqb_spec k n) as [<-|NE]; cbn [option_map holds].
    + exists (List.length h), t. rewrite dget_dput_same, tget_app_new. auto.
    + specialize (A12 n). apply (holds_grows _ _ _ _ _ G) in A12. revert A12. cbn [x_store with_ctools]. unfold holds. destruct (option_map _ _); now rewrite dget_dput_other.
  - intros n. exact (holds_grows _ _ _ _ _ G (A13 n)).
Qed.
End Head.

(** ** Hole sizes as comments *)
Definition without (t : text) : Prop := Forall (fun c => ~ In c (T "FY:;")) t.
Lemma without_app a b : without a -> without b -> without (a ++ b).
Proof. intros. now apply Forall_app. Qed.
Lemma without_lit s : forallb (fun c => negb (ceq c "F"%char || ceq c "Y"%char || ceq c ":"%char || ceq c ";"%char)) (T s) = true -> without (T s).
Proof.
  intros H. apply Forall_forall. intros c I E. rewrite forallb_forall in H. specialize (H c I). cbn in E. destruct E as [<-|[<-|[<-|[<-|[]]]]]; discriminate H.
Qed.
Lemma without_decimal s v : decimal s v -> without s.
Proof. intros D. destruct (decimal_chars _ _ D) as [F _]. eapply Forall_impl; [|exact F]. intros a [H|H] E; cbn in E; destruct E as [<-|[<-|[<-|[<-|[]]]]]; discriminate H. Qed.
Lemma without_number s n : number s n -> without s.
Proof. intros (D & _). eapply Forall_impl; [|exact D]. intros a Ha E. cbn in E, Ha. destruct E as [<-|[<-|[<-|[<-|[]]]]]; intuition discriminate. Qed.
Lemma without_blanks s : blanks s -> without s.
Proof. intros B. eapply Forall_impl; [|exact B]. intros a [->| ->] E; cbn in E; intuition discriminate. Qed.
Lemma hole_size_without e t : hole_size e t -> without t.
Proof.
  intros [ds n s size x xt y yt p u q k Nd _ Ds Dx Dy Nq|ds n hs h s size x xt y yt p u q k Nd _ Nh _ Ds Dx Dy Nq].
  - repeat apply without_app; try (apply without_lit; reflexivity); eauto using without_decimal, without_number; [destruct p|destruct u]; apply without_lit; reflexivity.
  - repeat apply without_app; try (apply without_lit; reflexivity); eauto using without_decimal, without_number; [destruct p|destruct u]; apply without_lit; reflexivity.
Qed.
Lemma hole_size_last e t : hole_size e t -> exists r c, t = r ++ [c] /\ is_space c = false.
Proof.
  intros H. assert (G : forall a q k, number q k -> exists r c, a ++ q = r ++ [c] /\ is_space c = false).
  { intros a q k Nq. destruct (number_last q k Nq) as (r & c & -> & Hc). exists (a ++ r), c. now rewrite app_assoc. }
  destruct H as [ds n s size x xt y yt p u q k Nd _ Ds Dx Dy Nq|ds n hs h s size x xt y yt p u q k Nd _ Nh _ Ds Dx Dy Nq].
  - rewrite !app_assoc. eapply G, Nq.
  - rewrite !app_assoc. eapply G, Nq.
Qed.
Lemma hole_size_named e t : hole_size e t -> text_in (T " Holesize ") (T " " ++ t) = true.
Proof.
  intros [ds n s size x xt y yt p u q k Nd _ Ds Dx Dy Nq|ds n hs h s size x xt y yt p u q k Nd _ Nh _ Ds Dx Dy Nq].
  - reflexivity.
  - apply occurs_text_in; [discriminate|]. exists (T " " ++ T "T" ++ ds). eexists. rewrite <- !app_assoc. reflexivity.
Qed.
Lemma hole_size_tool e t : hole_size e (T "T" ++ t) -> text_in (T " Holesize ") (T "T" ++ t) = true.
Proof.
  intros H. remember (T "T" ++ t) as t' eqn:E. destruct H as [ds n s size x xt y yt p u q k Nd _ Ds Dx Dy Nq|ds n hs h s size x xt y yt p u q k Nd _ Nh _ Ds Dx Dy Nq].
  - discriminate E.
  - apply occurs_text_in; [discriminate|]. exists (T "T" ++ ds). eexists. rewrite <- !app_assoc. reflexivity.
Qed.
Lemma text_in_front p a s : p <> [] -> text_in p s = true -> text_in p (a ++ s) = true.
Proof. intros N H. apply occurs_text_in; [exact N|]. apply text_in_occurs in H; [|exact N]. rewrite <- (app_nil_r s). now apply occurs_sub. Qed.
(** The line with a hole size, after stripping. *)
Lemma size_strip e t a b : hole_size e t -> blanks b -> strip (";"%char :: a ++ t ++ b) = ";"%char :: a ++ t.
Proof.
  intros H B. destruct (hole_size_last e t H) as (r & c & -> & Hc). replace (";"%char :: a ++ (r ++ [c]) ++ b) with ((";"%char :: a ++ r ++ [c]) ++ b) by (cbn; now rewrite <- !app_assoc).
  rewrite strip_back by now apply blanks_space. apply (strip_bounds _ ";"%char c); [eauto| |reflexivity|exact Hc]. exists (";"%char :: a ++ r). cbn. now rewrite <- app_assoc.
Qed.
Lemma without_in t : without t -> forall x, In x (T "FY:") -> ~ In x t.
Proof. intros W x I J. unfold without in W. rewrite Forall_forall in W. apply (W x J). cbn in *. tauto. Qed.
Lemma without_head t : without t -> match t with x :: _ => x <> ";"%char | [] => True end.
Proof. intros W. destruct W as [|x l H _]; [exact Logic.I|]. intros ->. apply H. cbn. tauto. Qed.

Section HeadRun.
Variable hs : unit_ -> text -> res (option tool).
Variables (i d : nat) (z : zkind).
Hypothesis Hr : readable i d.
Variables (u : unit_) (inc : bool) (ext : list tool).
Lemma head_run xs es ts : header i d z xs es ts -> es = [] \/ hs = ToolModel.holesize false -> forall defs notes st, head i d z u inc ext defs notes st ->
  exists st', parse_lines hs st (map strip ts) = Ok st' /\ head i d z u inc ext (defs ++ xs) (notes ++ es) st'.
Proof.
  intros H. induction H as [|x t xs es ts X H IH|t xs es ts R H IH|t xs es ts P H IH|a b t e xs es ts A B X H IH|a b t e xs es ts A B X H IH]; intros HS defs notes st S.
  - exists st. rewrite !app_nil_r. auto.
  - cbn [map parse_lines]. rewrite (strip_nospace t) by (eapply defines_nospace; eassumption). destruct (head_define hs i d z Hr u inc ext defs notes st x t S X) as (s1 & E1 & S1). rewrite E1. cbn [bind].
    destruct (IH HS _ _ s1 S1) as (s2 & E2 & S2). exists s2. split; [exact E2|]. now rewrite <- app_assoc in S2.
  - cbn [map parse_lines]. destruct (head_remark hs i d z u inc ext defs notes st _ S (remark_strip _ R)) as (s1 & E1 & S1). rewrite E1. cbn [bind]. exact (IH HS _ _ s1 S1).
  - cbn [map parse_lines]. assert (Es : strip t = t) by (destruct P as [->| ->]; reflexivity). rewrite Es.
    destruct (head_plated hs i d z u inc ext defs notes st t S P) as (s1 & E1 & S1). rewrite E1. cbn [bind]. exact (IH HS _ _ s1 S1).
  - destruct HS as [HS|HS]; [discriminate|]. cbn [map parse_lines]. replace (T ";" ++ a ++ T " " ++ t ++ b) with (";"%char :: (a ++ T " ") ++ t ++ b) by (cbn; now rewrite <- app_assoc).
    rewrite (size_strip e) by assumption. assert (A' : blanks (a ++ T " ")) by (apply Forall_app; split; [exact A|repeat constructor]).
    assert (W : without ((a ++ T " ") ++ t)) by (apply without_app; [now apply without_blanks|eapply hole_size_without; eassumption]).
    destruct (head_size hs i d z u inc ext defs notes st e ((a ++ T " ") ++ t)) as (s1 & E1 & S1); [exact S| | |now apply without_in|now apply without_head|].
    + rewrite HS. apply holesize_says. rewrite <- (app_nil_r t). constructor; [exact A'|constructor|exact X].
    + rewrite <- app_assoc. apply text_in_front; [discriminate|]. now apply (hole_size_named e).
    + rewrite E1. cbn [bind]. destruct (IH (or_intror HS) _ _ s1 S1) as (s2 & E2 & S2). exists s2. split; [exact E2|]. now rewrite <- app_assoc in S2.
  - destruct HS as [HS|HS]; [discriminate|]. cbn [map parse_lines]. change (T ";" ++ a ++ (T "T" ++ t) ++ b) with (";"%char :: a ++ (T "T" ++ t) ++ b).
    rewrite (size_strip e) by assumption.
    assert (W : without (a ++ (T "T" ++ t))) by (apply without_app; [now apply without_blanks|eapply hole_size_without; eassumption]).
    destruct (head_size hs i d z u inc ext defs notes st e (a ++ (T "T" ++ t))) as (s1 & E1 & S1); [exact S| | |now apply without_in|now apply without_head|].
    + rewrite HS. apply holesize_says. rewrite <- (app_nil_r (T "T" ++ t)). constructor; [exact A|constructor|exact X].
    + apply text_in_front; [discriminate|]. now apply (hole_size_tool e).
    + rewrite E1. cbn [bind]. destruct (IH (or_intror HS) _ _ s1 S1) as (s2 & E2 & S2). exists s2. split; [exact E2|]. now rewrite <- app_assoc in S2.
Qed.
End HeadRun.

(** ** The lines before the unit line *)
Record open_at (se : xset) (ext : list tool) (f : fmt) (st : xst) : Prop := mkOpen {
  o_prev : x_prev st = [];
  o_state : x_state st = SHeader;
  o_fmt : x_format st = [Z.of_nat (fst f); Z.of_nat (snd f)];
  o_not : x_notation st = xs_notation se;
  o_pos : x_pos st = (0, 0);
  o_down : x_down st = false;
  o_core : same_core (x_start se ext) st }.
Lemma last_cons {A} (f : A) fs x : last (f :: fs) x = last fs f.
Proof. revert f x. induction fs as [|g fs IH]; intros f x; [reflexivity|]. change (last (f :: g :: fs) x) with (last (g :: fs) x). now rewrite !IH. Qed.
Lemma open_run hs se ext fs ts : opening fs ts -> forall f st, open_at se ext f st ->
  exists st', parse_lines hs st (map strip ts) = Ok st' /\ open_at se ext (last fs f) st'.
Proof.
  intros H. induction H as [|t fs ts R H IH|a b i d fs ts Na Nb H IH]; intros f st S.
  - exists st. auto.
  - cbn [map parse_lines]. destruct (remark_step hs st _ (o_prev _ _ _ _ S) (remark_strip _ R)) as (c & E1 & _). rewrite E1. cbn [bind]. apply IH.
    destruct S as [A1 A2 A3 A4 A5 A6]. constructor; auto.
  - cbn [map parse_lines]. rewrite last_cons. assert (Es : strip (T ";FILE_FORMAT=" ++ a ++ T ":" ++ b) = T ";FILE_FORMAT=" ++ a ++ T ":" ++ b).
    { destruct (number_last b _ Nb) as (r & c & -> & Hc). apply (strip_bounds _ ";"%char c); [cbn; eauto| |reflexivity|exact Hc]. exists (T ";FILE_FORMAT=" ++ a ++ T ":" ++ r). cbn. now rewrite <- !app_assoc. }
    rewrite Es, (format_step hs st a b i d) by (auto; apply S). cbn [bind]. apply IH. destruct S as [A1 A2 A3 A4 A5 A6]. constructor; auto.
Qed.
Lemma opening_lines fs ts : opening fs ts -> Forall no_newline ts.
Proof.
  intros H. induction H as [|t fs ts R H IH|a b i d fs ts Na Nb H IH]; constructor; auto.
  - destruct R as [c N _]. intros [I|I]; [discriminate|auto].
  - apply nl_free_iff. repeat apply nl_free_app; eauto using number_nl; now apply lit_nl.
Qed.
Lemma nospace_nl t : nospace t -> no_newline t.
Proof. intros F I. unfold nospace in F. rewrite Forall_forall in F. specialize (F _ I). discriminate F. Qed.
Lemma header_lines i d z xs es ts : header i d z xs es ts -> Forall no_newline ts.
Proof.
  assert (G : forall e a t b, hole_size e t -> blanks a -> blanks b -> no_newline (T ";" ++ a ++ t ++ b)).
  { intros e a t b X A B. apply nl_free_iff. repeat apply nl_free_app; [now apply lit_nl| | |].
    - apply Forall_forall. intros c I ->. exact (blanks_nl a A I).
    - exact (proj2 (entry_text e t (or_intror X))).
    - apply Forall_forall. intros c I ->. exact (blanks_nl b B I). }
  intros H. induction H as [|x t xs es ts X H IH|t xs es ts R H IH|t xs es ts P H IH|a b t e xs es ts A B X H IH|a b t e xs es ts A B X H IH]; constructor; auto.
  - eapply nospace_nl, defines_nospace; eassumption.
  - destruct R as [c N _]. intros [I|I]; [discriminate|auto].
  - destruct P as [->| ->]; apply nl_free_iff; now apply lit_nl.
  - replace (T ";" ++ a ++ T " " ++ t ++ b) with (T ";" ++ (a ++ T " ") ++ t ++ b) by (now rewrite <- app_assoc). apply (G e); auto. apply Forall_app; split; [exact A|repeat constructor].
  - now apply (G e).
Qed.

(** ** The tools given beforehand *)
Lemma tools_numbered ext : forall pre dct,
  (forall n, holds (pre ++ ext) dct n (option_map t_diam (tool_numbered n pre))) ->
  forall n, holds (pre ++ ext) (fold_left (fun d it => dput (t_num (snd it)) (fst it) d) (combine (seq (List.length pre) (List.length ext)) ext) dct) n (option_map t_diam (tool_numbered n (pre ++ ext))).
Proof.
  induction ext as [|t ext IH]; intros pre dct H n; [cbn; specialize (H n); now rewrite app_nil_r in *|].
  cbn [List.length seq combine fold_left fst snd]. replace (pre ++ t :: ext) with ((pre ++ [t]) ++ ext) in * by (now rewrite <- app_assoc).
  replace (S (List.length pre)) with (List.length (pre ++ [t])) by (rewrite app_length; cbn; lia). apply IH. clear n. intros n.
  unfold tool_numbered. rewrite map_app. cbn [map]. rewrite latest_snoc. destruct (Z.eqb_spec (t_num t) n) as [<-|NE].
  - cbn [option_map holds]. exists (List.length pre), t. rewrite dget_dput_same. split; [reflexivity|]. split; [|reflexivity].
    unfold tget. rewrite <- app_assoc. rewrite nth_error_app2, Nat.sub_diag by lia. reflexivity.
  - specialize (H n). unfold tool_numbered in H. unfold holds in *. destruct (option_map _ _); now rewrite dget_dput_other.
Qed.
Lemma start_tools se ext n : holds ext (x_ext (x_start se ext)) n (option_map t_diam (tool_numbered n ext)).
Proof. refine (tools_numbered ext [] [] _ n). intros k. reflexivity. Qed.

(** ** The whole file *)
Definition reached (u : unit_) (defs : list definition) (notes : list (Z * entry)) (ext : list tool) (n : Z) : option Qc :=
  match defined n defs, latest n notes, tool_numbered n ext with
  | Some x, _, _ => param "C"%char (d_params x)
  | None, Some e, _ => Some (measured u e)
  | None, None, Some t => t_diam t
  | None, None, None => diameter [] u n
  end.
Lemma reached_near u defs notes ext n : near_opt (reached u defs notes ext n) (wanted u defs notes ext n).
Proof.
  unfold reached, wanted. assert (R : forall o, near_opt o o) by (intros [x|]; [apply near_refl|exact Logic.I]).
  destruct (defined n defs) eqn:E; [unfold diameter; rewrite E; apply R|]. destruct (latest n notes) as [e|]; [apply measured_near|]. destruct (tool_numbered n ext); apply R.
Qed.
Lemma head_dv i d z u inc ext defs notes st n : head i d z u inc ext defs notes st -> dv st n = reached u defs notes ext n /\ (known defs notes ext n = true -> lookup st n <> None).
Proof.
  intros S. generalize (g_tools _ _ _ _ _ _ _ _ _ S n) (g_ctools _ _ _ _ _ _ _ _ _ S n) (g_ext _ _ _ _ _ _ _ _ _ S n) (g_units _ _ _ _ _ _ _ _ _ S). unfold dv, lookup, reached, known, holds.
  destruct (defined n defs) as [x|]; cbn [option_map].
  - intros (l & t & -> & -> & ->) _ _ _. split; [reflexivity|discriminate].
  - intros ->. destruct (latest n notes) as [e|]; cbn [option_map].
    + intros (l & t & -> & -> & ->) _ _. split; [reflexivity|discriminate].
    + intros ->. destruct (tool_numbered n ext) as [t0|]; cbn [option_map].
      * intros (l & t & -> & -> & ->) _. split; [reflexivity|discriminate].
      * intros -> ->. split; [|discriminate]. unfold diameter. cbn [defined]. unfold default_diam, metric, zq. destruct u; f_equal.
Qed.
(** The header, up to its end mark. *)
Lemma head_start hs se ext fs pre u z fo tu i d xs es hl e :
  es = [] \/ hs = ToolModel.holesize false ->
  opening fs pre -> format_text fo tu -> (i, d) = format_in fo fs se -> readable i d -> header i d z xs es hl -> (e = T "%" \/ e = T "M95") ->
  exists s4, parse_lines hs (x_start se ext) (map strip (T "M48" :: pre ++ (unit_text u ++ zeros_text z ++ tu) :: hl ++ [e])) = Ok s4 /\
    sim i d z u (reached u xs es ext) (known xs es ext 1) SDrill false s4 None (start_inc se) (0, 0) /\ x_hits s4 = [].
Proof.
  intros HS Fo Ft Ei Hr Fd He.
  assert (NE : nospace e) by (destruct He as [->| ->]; repeat constructor).
  assert (NU : nospace (unit_text u ++ zeros_text z ++ tu)) by (destruct Ft, u, z; repeat constructor).
  rewrite map_cons, map_app, map_cons, map_app, map_cons. rewrite (strip_nospace e NE), (strip_nospace _ NU). change (strip (T "M48")) with (T "M48").
  set (inc := start_inc se). cbn [parse_lines]. rewrite dispatch_m48 by reflexivity. cbn [bind]. rewrite parse_lines_app.
  match goal with |- context [parse_lines hs ?s (map strip pre)] => set (s0 := s) end.
  assert (O0 : open_at se ext (xs_format se) s0) by (constructor; try reflexivity; repeat split).
  destruct (open_run hs se ext fs pre Fo _ s0 O0) as (s1 & E1 & O1). rewrite E1. cbn [bind]. cbn [parse_lines].
  rewrite (fun st H => dispatch_unit hs st u z fo tu H Ft) by apply O1. cbn [bind]. match goal with |- context [parse_lines hs ?s _] => set (s2 := s) end.
  assert (H0 : head i d z u inc ext [] [] s2).
  { assert (D0 : forall fm, x_format fm = [Z.of_nat i; Z.of_nat d] -> x_zeros fm = z -> x_units fm = u -> x_prev fm = [] -> x_state fm = SHeader ->
      x_notation fm = x_notation s1 -> x_pos fm = (0, 0) -> x_down fm = false -> same_core s1 fm -> head i d z u inc ext [] [] fm).
    { intros fm F1 F2 F3 F4 F5 F6 F7 F8 C. destruct O1 as [A1 A2 A3 A4 A5 Ad A6]. assert (W1 : wf s1) by (eapply ev_wf with (holesize := hs) (f := false); [apply ev_same; exact A6|apply x_start_wf]).
      assert (W : wf fm) by (eapply ev_wf with (holesize := hs) (f := false); [apply ev_same; exact C|exact W1]).
      destruct C as (C1 & C2 & C3 & C4 & C5 & C6). destruct A6 as (B1 & B2 & B3 & B4 & B5 & B6). rewrite <- B1 in C1. rewrite <- B2 in C2. rewrite <- B3 in C3. rewrite <- B4 in C4. rewrite <- B5 in C5. rewrite <- B6 in C6. constructor; auto.
      - rewrite F6, A4. unfold inc, start_inc. destruct (xs_notation se); reflexivity.
      - intros n. rewrite <- C1, <- C2. reflexivity.
      - intros n. rewrite <- C1, <- C3. reflexivity.
      - intros n. rewrite <- C1, <- C4. exact (start_tools se ext n). }
    unfold s2. destruct O1 as [A1 A2 A3 A4 A5 Ad A6]. destruct fo as [[a b]|].
    - injection Ei as -> ->. apply D0; auto; repeat split.
    - apply D0; auto; [|repeat split]. cbn [format_in] in Ei. rewrite <- Ei in A3. exact A3. }
  rewrite parse_lines_app. destruct (head_run hs i d z Hr u inc ext xs es hl Fd HS [] [] s2 H0) as (s3 & E3 & S3). rewrite E3. cbn [bind]. cbn [app] in S3.
  cbn [parse_lines]. set (D := reached u xs es ext). set (one := known xs es ext 1).
  assert (E4 : exists s4, parse_line hs s3 e = Ok s4 /\ sim i d z u D one SDrill false s4 None inc (0, 0) /\ x_hits s4 = []).
  { assert (G : forall x, sim i d z u D one SDrill false (with_state SDrill (add_stmt x s3)) None inc (0, 0)).
    { intros x. assert (W : wf (with_state SDrill (add_stmt x s3))) by (eapply (ev_wf hs false s3); [apply ev_same; repeat split|apply S3]).
      constructor; auto; try (apply S3).
      - intros n. exact (proj1 (head_dv _ _ _ _ _ _ _ _ _ n S3)).
      - exact (proj2 (head_dv _ _ _ _ _ _ _ _ _ 1%Z S3)). }
    destruct He as [->| ->]; [rewrite dispatch_rewind by apply S3|rewrite dispatch_m95 by apply S3]; eexists; (split; [reflexivity|]); (split; [apply G|]); apply S3. }
  destruct E4 as (s4 & E4 & S4 & H4). rewrite E4. cbn [bind map parse_lines]. exists s4. auto.
Qed.
Lemma C94_lemma hs se ext fs pre u z fo tu i d xs es hl e prog body tail eol :
  es = [] \/ hs = ToolModel.holesize false ->
  opening fs pre -> format_text fo tu -> (i, d) = format_in fo fs se -> readable i d -> header i d z xs es hl ->
  (e = T "%" \/ e = T "M95") -> Forall2 (says i d z) prog body -> (tail = [] \/ tail = [T "M30"]) -> line_end eol -> tool_known (known xs es ext 1) prog ->
  exists f, parse_raw hs se ext (file_text eol (T "M48" :: pre ++ (unit_text u ++ zeros_text z ++ tu) :: hl ++ e :: body ++ tail)) = Ok f /\
    Forall2 (hole_as (xf_store f) (wanted u xs es ext)) (xf_hits f) (holes None (start_inc se) (0, 0) prog) /\
    xs_units (xf_set f) = u /\ xs_format (xf_set f) = (i, d) /\ xs_zeros (xf_set f) = z.
Proof.
  intros HS Fo Ft Ei Hr Fd He Fp Htl Eo K. unfold parse_raw.
  assert (NB : Forall nospace body) by (eapply Forall2_right; [|exact Fp]; intros; eapply says_nospace; eassumption).
  assert (NT : Forall nospace tail) by (destruct Htl as [->| ->]; repeat constructor).
  assert (NE : nospace e) by (destruct He as [->| ->]; repeat constructor).
  assert (NU : nospace (unit_text u ++ zeros_text z ++ tu)) by (destruct Ft, u, z; repeat constructor).
  assert (ST : forall l, Forall nospace l -> map strip l = l).
  { intros l F. induction F as [|a l H F IH]; [reflexivity|]. cbn [map]. now rewrite IH, strip_nospace. }
  rewrite lines_stripped; [|exact Eo|].
  2: { assert (NL : forall l, Forall nospace l -> Forall no_newline l) by (intros l F; eapply Forall_impl; [|exact F]; exact nospace_nl).
       constructor; [apply nospace_nl; repeat constructor|]. apply Forall_app; split; [eapply opening_lines; eassumption|]. constructor; [now apply nospace_nl|].
       apply Forall_app; split; [eapply header_lines; eassumption|]. constructor; [now apply nospace_nl|]. apply Forall_app; split; auto. }
  destruct (head_start hs se ext fs pre u z fo tu i d xs es hl e HS Fo Ft Ei Hr Fd He) as (s4 & E4 & S4 & H4).
  set (inc := start_inc se) in *. set (D := reached u xs es ext) in *. set (one := known xs es ext 1) in *.
  replace (T "M48" :: pre ++ (unit_text u ++ zeros_text z ++ tu) :: hl ++ e :: body ++ tail)
    with ((T "M48" :: pre ++ (unit_text u ++ zeros_text z ++ tu) :: hl ++ [e]) ++ body ++ tail) by (cbn; now rewrite <- !app_assoc; cbn; rewrite <- !app_assoc).
  rewrite (map_app strip _ (body ++ tail)), (map_app strip body tail), (ST body NB), (ST tail NT), <- !app_assoc, parse_lines_app, E4. cbn [bind]. rewrite parse_lines_app.
  destruct (sim_run hs i d z u D one SDrill false Hr ltac:(discriminate) prog body s4 None inc (0, 0) S4 Fp K eq_refl) as (s5 & new & [[cur' inc'] p'] & E5 & S5 & H5 & V5).
  rewrite E5. cbn [bind]. rewrite parse_lines_app.
  destruct (sim_settings _ _ _ _ _ _ _ _ _ _ _ _ S5) as (se5 & Es & Ef & Ez & Eu).
  assert (E6 : exists s6, parse_lines hs s5 tail = Ok s6 /\ x_hits s6 = x_hits s5 /\ x_store s6 = x_store s5 /\ settings_of s6 = settings_of s5 /\ x_prev s6 = []).
  { destruct Htl as [->| ->]; [exists s5; cbn; repeat split; auto; apply S5|]. cbn [parse_lines].
    rewrite (dispatch_m30 _ _ se5) by (auto; apply S5). eexists. cbn [bind]. split; [reflexivity|]. repeat split. apply S5. }
  destruct E6 as (s6 & E6 & H6 & St6 & Se6 & P6). rewrite E6. cbn [bind parse_lines]. rewrite dispatch_blank by exact P6. cbn [bind].
  rewrite Se6, Es. cbn [bind]. eexists. split; [reflexivity|]. cbn. rewrite H6, St6, H5, H4. cbn [app].
  split; [|auto]. clear - V5. induction V5 as [|h x hs' xs' V _ IH]; constructor; [|exact IH]. exists (D (fst x)). split; [exact V|apply reached_near].
Qed.
