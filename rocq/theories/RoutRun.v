From Verif Require Import PyBase QcLib NumModel NumSpec NumProofs FmtModel FmtProofs Regex GerberText GerberTextProofs MacroProofs
  ExcellonModel ExcellonFile ExcellonSpec ExcellonProofs ExcellonRun ToolModel ToolSpec ToolProofs HeadSpec HeadRun RoutSpec.
Open Scope list_scope.
Open Scope Qc_scope.

(** ** Characters of places *)
Section Text.
Variables (i d : nat) (z : zkind).
Hypothesis Hr : readable i d.
Lemma place_chars x y t c : place i d z x y t -> num_char c = false -> c <> "X"%char -> c <> "Y"%char -> ~ In c t.
Proof.
  intros [a b tx ty Fx Fy N] H1 H2 H3 I. apply in_app_or in I as [I|I].
  - refine (field_chars i d z _ _ _ c Fx H1 _ I). cbn. intuition congruence.
  - refine (field_chars i d z _ _ _ c Fy H1 _ I). cbn. intuition congruence.
Qed.
Lemma place_head x y t : place i d z x y t -> exists c r, t = c :: r /\ (c = "X"%char \/ c = "Y"%char).
Proof.
  intros [a b tx ty Fx Fy N]. destruct Fx as [|tx x' Rx]; [destruct Fy as [|ty y' Ry]; [destruct N; contradiction|]|]; cbn; eauto.
Qed.
Lemma place_reads x y t se : place i d z x y t -> xs_format se = (i, d) -> xs_zeros se = z -> read_xy se t = Ok (x, y).
Proof. intros [a b tx ty Fx Fy N] Ef Ez. now apply (read_xy_says i d z). Qed.
Lemma place_nospace x y t : place i d z x y t -> nospace t.
Proof. intros [a b tx ty Fx Fy N]. apply (says_nospace i d z (At a b)). now constructor. Qed.
Lemma place_split x y t : place i d z x y t -> forall fuel e, (List.length (t ++ T "G85" ++ e) < fuel)%nat -> (forall c, In c (T "G") -> ~ In c e) ->
  split_text fuel (T "G85") (t ++ T "G85" ++ e) = [t; e].
Proof.
  intros P. assert (NG : ~ In "G"%char t) by (apply (place_chars _ _ _ _ P); [reflexivity|discriminate..]). clear P.
  assert (E0 : forall e fuel, ~ In "G"%char e -> (List.length e < fuel)%nat -> split_text fuel (T "G85") e = [e]).
  { induction e as [|c e IH]; intros [|fuel] N L; cbn in L; try lia; [reflexivity|]. cbn [split_text].
    assert (X : strip_prefix (T "G85") (c :: e) = None).
    { cbn. destruct (ceq "G" c) eqn:Ec; [|reflexivity]. apply ceq_true in Ec. subst. exfalso. apply N. now left. }
    rewrite X, IH; [reflexivity| |lia]. intros I. apply N. now right. }
  induction t as [|c t IH]; intros [|fuel] e L NE; cbn [app List.length] in L; try lia.
  - change (split_text (S fuel) (T "G85") ([] ++ T "G85" ++ e)) with ([] :: split_text fuel (T "G85") e). rewrite E0; [reflexivity|apply NE; now left|cbn in L; lia].
  - cbn [app split_text]. assert (X : strip_prefix (T "G85") (c :: t ++ T "G85" ++ e) = None).
    { cbn. destruct (ceq "G" c) eqn:Ec; [|reflexivity]. apply ceq_true in Ec. subst. exfalso. apply NG. now left. }
    rewrite X, IH; [reflexivity|intros I; apply NG; now right|lia|exact NE].
Qed.
Lemma slot_reads xs ys xe ye s e se : place i d z xs ys s -> place i d z xe ye e -> xs_format se = (i, d) -> xs_zeros se = z ->
  read_slot se (s ++ T "G85" ++ e) = Ok (xs, ys, match xe with None => xs | v => v end, match ye with None => ys | v => v end).
Proof.
  intros Ps Pe Ef Ez. unfold read_slot. rewrite (place_split _ _ _ Ps); [|lia|].
  2: { intros c [<-|[]]. apply (place_chars _ _ _ _ Pe); [reflexivity|discriminate..]. }
  rewrite (place_reads _ _ _ se Ps Ef Ez), (place_reads _ _ _ se Pe Ef Ez). cbn. now destruct xe, ye.
Qed.
End Text.

(** ** Dispatch *)
Section P.
Variable holesize : unit_ -> text -> res (option tool).
Notation pl := (parse_line holesize).
Ltac disp E :=
  unfold parse_line; rewrite E; cbn [app]; rewrite with_prev_same by exact E;
  try match goal with |- context [strip (T ?l)] => let x := eval cbv in (T l) in change (strip (T l)) with (strip x) end;
  let r' := fresh in
  match goal with |- context [strip (?c :: ?r)] => destruct (strip_cons c r ltac:(reflexivity)) as [r' ->] end; cbv zeta.
Lemma dispatch_m15 st : x_prev st = [] -> pl st (T "M15") = Ok (with_down true (add_stmt EZRout st)).
Proof. intros E. disp E. reflexivity. Qed.
Lemma dispatch_m16 st : x_prev st = [] -> pl st (T "M16") = Ok (with_down false (add_stmt ERetractC st)).
Proof. intros E. disp E. reflexivity. Qed.
Lemma dispatch_m17 st : x_prev st = [] -> pl st (T "M17") = Ok (with_down false (add_stmt ERetract st)).
Proof. intros E. disp E. reflexivity. Qed.
Lemma dispatch_g05 st : x_prev st = [] -> pl st (T "G05") = Ok (with_state SDrill (with_down false (add_stmt EDrill st))).
Proof. intros E. disp E. reflexivity. Qed.
Definition rout_text (m : cmode) : text := match m with Rout => T "G00" | Linear => T "G01" end.
Lemma dispatch_bare m st : x_prev st = [] -> pl st (rout_text m) = Ok (with_prev (rout_text m) st).
Proof. intros E. unfold parse_line. rewrite E. cbn [app]. rewrite with_prev_same by exact E. destruct m; reflexivity. Qed.
Lemma dispatch_rout m st t : nospace t -> t <> [] -> x_prev st = [] -> pl st (rout_text m ++ t) = rout_line m (rout_text m ++ t) st.
Proof.
  intros N NE E. unfold parse_line. rewrite E. cbn [app]. rewrite with_prev_same by exact E.
  assert (S : strip (rout_text m ++ t) = rout_text m ++ t) by (apply strip_nospace; apply Forall_app; split; [destruct m; repeat constructor|exact N]).
  rewrite S. destruct t as [|c t]; [contradiction|]. destruct m; reflexivity.
Qed.
Lemma dispatch_joined m st t : nospace t -> t <> [] -> x_prev st = rout_text m -> pl st t = rout_line m (rout_text m ++ t) (with_prev [] st).
Proof.
  intros N NE E. rewrite <- dispatch_rout by auto. unfold parse_line. rewrite E. reflexivity.
Qed.
Lemma dispatch_slot st c r : x_prev st = [] -> c = "X"%char \/ c = "Y"%char -> ~ In "I"%char r -> ~ In "M"%char r -> text_in (T "G85") (c :: r) = true ->
  pl st (c :: r) = slot_line (c :: r) st.
Proof.
  intros E C NI NM TG.
  assert (TI : text_in (T "INCH") (c :: r) = false) by (apply text_in_absent; intros [X|X]; [destruct C; congruence|auto]).
  assert (TM : text_in (T "METRIC") (c :: r) = false) by (apply text_in_absent; intros [X|X]; [destruct C; congruence|auto]).
  destruct C as [->| ->]; disp E; rewrite TI, TM, TG; reflexivity.
Qed.
End P.

(** ** The simulation *)
Lemma tool_of_grows s s' h t : grows s s' -> tool_of s h = Some t -> exists t', tool_of s' h = Some t' /\ t_num t' = t_num t /\ t_diam t' = t_diam t.
Proof.
  intros G. destruct h as [[l|] p|[l|] p q r]; cbn [tool_of]; try discriminate; intros E; destruct (G l t E) as (t' & E' & En & Ed); exists t'; auto.
Qed.
Section Sim.
Variable holesize : unit_ -> text -> res (option tool).
Variables (i d : nat) (z : zkind) (u : unit_) (D : Z -> option Qc) (one : bool).
Hypothesis Hr : readable i d.
Definition pst (a : activity) : pstate := match a with Holing => SDrill | Moving => SRout | Milling => SLinear end.
Lemma pst_header a : pst a <> SHeader.
Proof. destruct a; discriminate. Qed.
Notation sm a lo := (sim i d z u D one (pst a) lo).
Definition mark_ok (s : list tool) (h : hit) (e : Z * mark) : Prop :=
  exists t, tool_of s h = Some t /\ t_num t = fst e /\ t_diam t = D (fst e) /\ mark_of h = Some (snd e).
Lemma mark_grows s s' h e : grows s s' -> mark_ok s h e -> mark_ok s' h e.
Proof. intros G (t & E & N & Dm & M). destruct (tool_of_grows s s' h t G E) as (t' & E' & N' & D'). exists t'. repeat split; congruence. Qed.
Lemma view_mark s h n p : view_ok D s h (n, p) -> mark_ok s h (n, Hole p).
Proof.
  unfold view_ok, hole_view, mark_ok. destruct h as [o q|o a b r]; [|discriminate]. destruct (tool_of s (Hit o q)) as [t|]; [|discriminate].
  intros [= E1 E2 E3]. exists t. cbn in *. repeat split; congruence.
Qed.
Lemma view_marks s hs es : Forall2 (view_ok D s) hs es -> Forall2 (mark_ok s) hs (map (fun e => (fst e, Hole (snd e))) es).
Proof. intros F. induction F as [|h [n p] hs es V _ IH]; constructor; [now apply view_mark|exact IH]. Qed.
Lemma sim_other a lo st st' cur inc p a' lo' (inc' : bool) p' : sm a lo st cur inc p -> same_core st st' -> x_units st' = x_units st -> x_prev st' = [] -> x_state st' = pst a' ->
  x_format st' = x_format st -> x_zeros st' = x_zeros st -> x_notation st' = (if inc' then Incremental else Absolute) -> x_pos st' = p' -> x_down st' = lo' ->
  sm a' lo' st' cur inc' p'.
Proof.
  intros S C. intros. assert (E : ev holesize false st st') by (now apply ev_same). destruct C as (C1 & C2 & C3 & C4 & C5 & C6).
  assert (LK : forall k, lookup st' k = lookup st k) by (intros k; unfold lookup; now rewrite <- C2, <- C3, <- C4).
  destruct S. constructor; auto; try congruence.
  - eapply ev_wf; eassumption.
  - destruct cur; [|congruence]. rewrite <- C5, <- C2. assumption.
  - intros k. rewrite <- s_dv. unfold dv. rewrite LK, <- C1. destruct (lookup st k); congruence.
  - rewrite LK. assumption.
Qed.
(** A slot made with the current tool, counted or not. *)
Lemma sim_slot a lo st n inc p l s e rout (counted : bool) : sm a lo st (Some n) inc p -> x_active st = Some l -> (counted = false -> rout = true) ->
  let h := Slot (Some l) (some_point s) (some_point e) rout in
  let st' := with_hits (if counted then tset (x_store st) l count_hit else x_store st) (x_hits st ++ [h]) st in
  sm a lo st' (Some n) inc p /\ mark_ok (x_store st') h (n, if rout then Milled s e else Slotted s e).
Proof.
  intros S A HR h st'. destruct (s_cur _ _ _ _ _ _ _ _ _ _ _ _ S) as (l' & A' & Tn). assert (l' = l) by congruence. subst l'.
  assert (G : grows (x_store st) (x_store st')).
  { unfold st'. cbn. destruct counted; [apply grows_tset; intros t; destruct t; auto|apply grows_refl]. }
  assert (LK : lookup st n = Some l) by (unfold lookup; now rewrite Tn).
  destruct (lookup_some st n l (s_wf _ _ _ _ _ _ _ _ _ _ _ _ S) LK) as (t & Et & En).
  assert (E : ev holesize true st st').
  { unfold st'. destruct counted; [apply ev_hit; auto|]. apply ev_free; [reflexivity|unfold h; rewrite (HR eq_refl); eauto|symmetry; exact A]. }
  split.
  - pose proof (ev_wf _ _ _ _ E (s_wf _ _ _ _ _ _ _ _ _ _ _ _ S)) as W. destruct S. constructor; cbn; auto.
    intros k. rewrite <- s_dv. unfold dv, lookup. cbn [x_tools x_ctools x_ext x_units st' with_hits]. fold (lookup st k). destruct (lookup st k) as [j|] eqn:Ej; [|reflexivity].
    destruct (lookup_some st k j s_wf Ej) as (tj & Etj & _). destruct (G j tj Etj) as (t' & -> & _ & ->). now rewrite Etj.
  - destruct (G l t Et) as (t' & Et' & En' & Ed'). exists t'. split; [exact Et'|]. cbn [fst snd]. rewrite En', Ed', En. split; [reflexivity|]. split.
    + rewrite <- (s_dv _ _ _ _ _ _ _ _ _ _ _ _ S n). unfold dv. now rewrite LK, Et.
    + unfold h. cbn. destruct s, e, rout; reflexivity.
Qed.

Definition cfg := (option Z * bool * point * activity * bool)%type.
Definition step1 (x : step) (c : cfg) : cfg :=
  let '(cur, inc, p, act, low) := c in
  match x with
  | Plain (Use n) => (if (n =? 0)%Z then cur else Some n, inc, p, act, low)
  | Plain Abs => (cur, false, p, act, low)
  | Plain Inc => (cur, true, p, act, low)
  | Plain (At x y) => (match act, low with Holing, _ | Milling, true => Some (tool_now cur) | _, _ => cur end, inc, reach inc p x y, act, low)
  | Plain (Rep k dx dy) => (cur, inc, along p (val dx) (val dy) k, act, low)
  | Move x y => (cur, inc, reach inc p x y, Moving, low)
  | Mill x y => (if low then Some (tool_now cur) else cur, inc, reach inc p x y, Milling, low)
  | Bend _ x y => (if low then Some (tool_now cur) else cur, inc, reach inc p x y, Milling, low)
  | Lower => (cur, inc, p, act, true)
  | Raise => (cur, inc, p, act, false)
  | Drilling => (cur, inc, p, Holing, false)
  | Groove xs ys xe ye => (Some (tool_now cur), inc, reach inc (reach inc p xs ys) xe ye, act, low)
  end.
Definition left1 (x : step) (c : cfg) : list (Z * mark) :=
  let '(cur, inc, p, act, low) := c in
  match x with
  | Plain (At x y) => match act, low with
                      | Holing, _ => [(tool_now cur, Hole (reach inc p x y))]
                      | Milling, true => [(tool_now cur, Milled p (reach inc p x y))]
                      | _, _ => []
                      end
  | Plain (Rep k dx dy) => map (fun j => (tool_now cur, Hole (along p (val dx) (val dy) j))) (seq 1 k)
  | Mill x y => if low then [(tool_now cur, Milled p (reach inc p x y))] else []
  | Bend w x y => if low then [(tool_now cur, Bent w p (reach inc p x y))] else []
  | Groove xs ys xe ye => let a := reach inc p xs ys in [(tool_now cur, Slotted a (reach inc a xe ye))]
  | _ => []
  end.
Definition marks_at (c : cfg) (l : list step) : list (Z * mark) := let '(cur, inc, p, act, low) := c in marks cur inc p act low l.
Lemma marks_cons x l c : marks_at c (x :: l) = left1 x c ++ marks_at (step1 x c) l.
Proof. destruct c as [[[[cur inc] p] act] low]. destruct x as [[n| | |x y|k dx dy]|x y|x y|w x y| | | |xs ys xe ye]; try reflexivity; [destruct act, low; reflexivity|cbn; now destruct low..]. Qed.
Definition sim_at (st : xst) (c : cfg) : Prop := let '(cur, inc, p, act, low) := c in sm act low st cur inc p.
(** What remains to be known about tools. *)
Definition tooled_at (c : cfg) (l : list step) : Prop := let '(cur, inc, p, act, low) := c in cur <> None \/ tooled one act low l.
Definition sensible_at (c : cfg) (l : list step) : Prop := let '(cur, inc, p, act, low) := c in sensible act l /\ supported inc l.
Lemma tooled_next x l c : tooled_at c (x :: l) -> tooled_at (step1 x c) l.
Proof.
  destruct c as [[[[cur inc] p] act] low]. unfold tooled_at. intros [H|H].
  - destruct x as [[n| | |x y|k dx dy]|x y|x y|w x y| | | |xs ys xe ye]; cbn; try (left; exact H); left; try discriminate.
    + destruct (n =? 0)%Z; [exact H|discriminate].
    + destruct act, low; auto; discriminate.
    + destruct low; [discriminate|exact H].
    + destruct low; [discriminate|exact H].
  - destruct x as [[n| | |x y|k dx dy]|x y|x y|w x y| | | |xs ys xe ye]; cbn in *; auto; try contradiction; try (left; discriminate).
    + destruct (Z.eqb_spec n 0) as [->|NE]; [destruct H as [H|H]; [contradiction|auto]|left; discriminate].
    + destruct act, low; auto; left; discriminate.
    + destruct low; [left; discriminate|auto].
    + destruct low; [left; discriminate|auto].
Qed.
Lemma sensible_next x l c : sensible_at c (x :: l) -> sensible_at (step1 x c) l.
Proof.
  destruct c as [[[[cur inc] p] act] low]. unfold sensible_at. intros [H G].
  destruct x as [[n| | |x y|k dx dy]|x y|x y|w x y| | | |xs ys xe ye]; cbn in *; intuition auto.
Qed.

Lemma place_says x y t : place i d z x y t -> says i d z (At x y) t.
Proof. intros [a b tx ty Fx Fy N]. now constructor. Qed.
(** A rout line, once its coordinates are read. *)
Lemma rout_step m st cur inc p act low x y t : sm act low st cur inc p -> place i d z x y t ->
  (m = Linear -> low = true -> cur <> None \/ one = true) ->
  exists st' new, rout_line m (rout_text m ++ t) st = Ok st' /\
    sim_at st' (step1 (match m with Rout => Move x y | Linear => Mill x y end) (cur, inc, p, act, low)) /\
    x_hits st' = x_hits st ++ new /\ Forall2 (mark_ok (x_store st')) new (left1 (match m with Rout => Move x y | Linear => Mill x y end) (cur, inc, p, act, low)).
Proof.
  intros S P K. destruct (sim_settings _ _ _ _ _ _ _ _ _ _ _ _ S) as (se & Es & Ef & Ez & Eu).
  unfold rout_line. match goal with |- context [settings_of ?s] => set (s0 := s) end. change (settings_of s0) with (settings_of st). rewrite Es. cbn [bind].
  assert (SK : skipn 3 (rout_text m ++ t) = t) by (now destruct m). rewrite SK, (place_reads i d z Hr _ _ _ se P Ef Ez). cbn [bind fst snd].
  set (s1 := move_to x y _). set (q := reach inc p x y). set (a' := match m with Rout => Moving | Linear => Milling end).
  assert (S1 : sm a' low s1 cur inc q).
  { eapply (sim_other act low st); [exact S|repeat split|reflexivity| | |reflexivity|reflexivity| | |]; try apply S.
    - unfold s1, s0, a'. now destruct m.
    - unfold s1, move_to, s0. cbn [x_pos with_pos x_notation add_stmt with_state]. rewrite (s_not _ _ _ _ _ _ _ _ _ _ _ _ S), (s_pos _ _ _ _ _ _ _ _ _ _ _ _ S). apply go_plus. }
  destruct m; cbn [step1 left1 sim_at].
  - exists s1, []. rewrite app_nil_r. split; [reflexivity|]. split; [exact S1|]. split; [reflexivity|constructor].
  - rewrite (s_down _ _ _ _ _ _ _ _ _ _ _ _ S1). destruct low.
    + destruct (sim_ensure holesize _ _ _ _ _ _ _ _ s1 cur inc q S1) as (s2 & l & E2 & A2 & S2 & H2 & G2).
      { intros ->. destruct (K eq_refl eq_refl) as [X|X]; [contradiction|exact X]. }
      rewrite E2. cbn [bind]. rewrite A2. unfold add_hit. rewrite A2. rewrite (s_pos _ _ _ _ _ _ _ _ _ _ _ _ S2). change (x_pos s0) with (x_pos st). rewrite (s_pos _ _ _ _ _ _ _ _ _ _ _ _ S).
      destruct (sim_slot Milling true s2 (tool_now cur) inc q l p q true true S2 A2) as [S3 M3]; [discriminate|].
      eexists. exists [Slot (Some l) (some_point p) (some_point q) true]. split; [reflexivity|]. split; [exact S3|]. split; [cbn; rewrite H2; reflexivity|]. constructor; [exact M3|constructor].
    + exists s1, []. rewrite app_nil_r. split; [reflexivity|]. split; [exact S1|]. split; [reflexivity|constructor].
Qed.
Lemma parse_one st t : parse_lines holesize st [t] = parse_line holesize st t.
Proof. cbn [parse_lines]. now destruct (parse_line holesize st t). Qed.
Lemma place_not_nil x y t : place i d z x y t -> t <> [].
Proof. intros P. destruct (place_head i d z x y t P) as (c & r & -> & _). discriminate. Qed.

Lemma rout_sim_step st c x lines rest : sim_at st c -> expresses i d z x lines -> tooled_at c (x :: rest) -> sensible_at c (x :: rest) ->
  exists st' new, parse_lines holesize st lines = Ok st' /\ sim_at st' (step1 x c) /\
    x_hits st' = x_hits st ++ new /\ Forall2 (mark_ok (x_store st')) new (left1 x c).
Proof.
  destruct c as [[[[cur inc] p] act] low]. intros S Ex K [V G]. cbn [sim_at] in S. pose proof (s_prev _ _ _ _ _ _ _ _ _ _ _ _ S) as P.
  destruct (sim_settings _ _ _ _ _ _ _ _ _ _ _ _ S) as (se & Es & Ef & Ez & Eu).
  assert (RM : forall m x y t, place i d z x y t -> (m = Linear -> low = true -> cur <> None \/ one = true) ->
    (exists st' new, parse_lines holesize st [rout_text m ++ t] = Ok st' /\ sim_at st' (step1 (match m with Rout => Move x y | Linear => Mill x y end) (cur, inc, p, act, low)) /\
      x_hits st' = x_hits st ++ new /\ Forall2 (mark_ok (x_store st')) new (left1 (match m with Rout => Move x y | Linear => Mill x y end) (cur, inc, p, act, low))) /\
    (exists st' new, parse_lines holesize st [rout_text m; t] = Ok st' /\ sim_at st' (step1 (match m with Rout => Move x y | Linear => Mill x y end) (cur, inc, p, act, low)) /\
      x_hits st' = x_hits st ++ new /\ Forall2 (mark_ok (x_store st')) new (left1 (match m with Rout => Move x y | Linear => Mill x y end) (cur, inc, p, act, low)))).
  { intros m a b t Pl Kt. split.
    - rewrite parse_one, dispatch_rout; [|eapply place_nospace; eassumption|eapply place_not_nil; eassumption|exact P]. now apply rout_step.
    - cbn [parse_lines]. rewrite dispatch_bare by exact P. cbn [bind].
      rewrite dispatch_joined with (m := m); [|eapply place_nospace; eassumption|eapply place_not_nil; eassumption|reflexivity].
      replace (with_prev [] (with_prev (rout_text m) st)) with st by (destruct st; cbn in P |- *; now rewrite P).
      destruct (rout_step m st cur inc p act low a b t S Pl Kt) as (s1 & n1 & E1 & R1). rewrite E1. exists s1, n1. auto. }
  assert (MODE : forall st' a' lo', same_core st st' -> x_units st' = x_units st -> x_prev st' = [] -> x_state st' = pst a' ->
     x_format st' = x_format st -> x_zeros st' = x_zeros st -> x_notation st' = x_notation st -> x_pos st' = x_pos st -> x_down st' = lo' -> sm a' lo' st' cur inc p).
  { intros st' a' lo' C; intros. eapply (sim_other act low st); try eassumption; [rewrite H4|rewrite H5]; apply S. }
  destruct Ex as [x t Sy|x y t Pl|x y t Pl|x y t Pl|x y t Pl|w x y t r v Pl Rd| | | | |xs ys xe ye s e Ps Pe].
  - (* plain instructions *)
    rewrite parse_one.
    assert (OLD : match x with At _ _ => act = Holing | _ => True end -> exists st' new, parse_line holesize st t = Ok st' /\ sim_at st' (step1 (Plain x) (cur, inc, p, act, low)) /\
      x_hits st' = x_hits st ++ new /\ Forall2 (mark_ok (x_store st')) new (left1 (Plain x) (cur, inc, p, act, low))).
    { intros HA. destruct (sim_step holesize i d z u D one (pst act) low Hr (pst_header act) st cur inc p x t [] S Sy) as (st' & new & E & S' & H' & V').
      - destruct cur as [n|]; [left; discriminate|]. destruct K as [K|K]; [contradiction|]. destruct x as [n| | |a b|k dx dy]; cbn in K |- *; auto. subst act. exact K.
      - destruct x; auto. now subst act.
      - exists st', new. split; [exact E|]. split; [|split; [exact H'|]].
        + destruct x as [n| | |a b|k dx dy]; cbn in S' |- *; try exact S'. subst act. exact S'.
        + apply view_marks in V'. destruct x as [n| | |a b|k dx dy]; cbn in V' |- *; try exact V'.
          * subst act. exact V'.
          * rewrite map_map in V'. exact V'. }
    destruct x as [n| | |a b|k dx dy]; try (apply OLD; exact Logic.I). destruct act; [now apply OLD|..].
    + inversion Sy as [| | | | |x y tx ty Fx Fy N Ea Eb|]. subst. assert (Pl : place i d z a b (tx ++ ty)) by now constructor.
      destruct (place_head i d z _ _ _ Pl) as (c & r & Et & Hc).
      assert (NC : forall q, num_char q = false -> q <> "X"%char -> q <> "Y"%char -> ~ In q r) by (intros q H1 H2 H3 X; apply (place_chars i d z _ _ _ q Pl H1 H2 H3); rewrite Et; now right).
      rewrite Et, dispatch_xy; [|exact P|exact Hc|apply NC; [reflexivity|discriminate..]..]. unfold coord_line. rewrite Es. cbn [bind]. rewrite <- Et, (place_reads i d z Hr _ _ _ se Pl Ef Ez). cbn [bind fst snd].
      set (s1 := move_to a b _). assert (S1 : sm Moving low s1 cur inc (reach inc p a b)).
      { eapply (sim_other Moving low st); [exact S|repeat split|reflexivity| | |reflexivity|reflexivity| | |]; try apply S.
        unfold s1, move_to. cbn [x_pos with_pos x_notation add_stmt]. rewrite (s_not _ _ _ _ _ _ _ _ _ _ _ _ S), (s_pos _ _ _ _ _ _ _ _ _ _ _ _ S). apply go_plus. }
      rewrite (s_state _ _ _ _ _ _ _ _ _ _ _ _ S1). cbn [pst]. exists s1, []. rewrite app_nil_r. split; [reflexivity|]. split; [exact S1|]. split; [reflexivity|constructor].
    + inversion Sy as [| | | | |x y tx ty Fx Fy N Ea Eb|]. subst. assert (Pl : place i d z a b (tx ++ ty)) by now constructor.
      destruct (place_head i d z _ _ _ Pl) as (c & r & Et & Hc).
      assert (NC : forall q, num_char q = false -> q <> "X"%char -> q <> "Y"%char -> ~ In q r) by (intros q H1 H2 H3 X; apply (place_chars i d z _ _ _ q Pl H1 H2 H3); rewrite Et; now right).
      rewrite Et, dispatch_xy; [|exact P|exact Hc|apply NC; [reflexivity|discriminate..]..]. unfold coord_line. rewrite Es. cbn [bind]. rewrite <- Et, (place_reads i d z Hr _ _ _ se Pl Ef Ez). cbn [bind fst snd].
      set (s1 := move_to a b _). assert (S1 : sm Milling low s1 cur inc (reach inc p a b)).
      { eapply (sim_other Milling low st); [exact S|repeat split|reflexivity| | |reflexivity|reflexivity| | |]; try apply S.
        unfold s1, move_to. cbn [x_pos with_pos x_notation add_stmt]. rewrite (s_not _ _ _ _ _ _ _ _ _ _ _ _ S), (s_pos _ _ _ _ _ _ _ _ _ _ _ _ S). apply go_plus. }
      rewrite (s_state _ _ _ _ _ _ _ _ _ _ _ _ S1), (s_down _ _ _ _ _ _ _ _ _ _ _ _ S1). cbn [pst]. destruct low.
      * destruct (sim_ensure holesize _ _ _ _ _ _ _ _ s1 cur inc _ S1) as (s2 & l & E2 & A2 & S2 & H2 & G2).
        { intros ->. destruct K as [K|K]; [contradiction|exact K]. }
        rewrite E2. cbn [bind]. rewrite A2, (s_pos _ _ _ _ _ _ _ _ _ _ _ _ S2), (s_pos _ _ _ _ _ _ _ _ _ _ _ _ S).
        destruct (sim_slot Milling true s2 (tool_now cur) inc _ l p (reach inc p a b) true false S2 A2) as [S3 M3]; [reflexivity|].
        eexists. exists [Slot (Some l) (some_point p) (some_point (reach inc p a b)) true]. split; [reflexivity|]. split; [exact S3|]. split; [cbn; rewrite H2; reflexivity|]. constructor; [exact M3|constructor].
      * exists s1, []. rewrite app_nil_r. split; [reflexivity|]. split; [exact S1|]. split; [reflexivity|constructor].
  - exact (proj1 (RM Rout x y t Pl ltac:(discriminate))).
  - exact (proj2 (RM Rout x y t Pl ltac:(discriminate))).
  - apply (RM Linear x y t Pl). intros _ ->. exact K.
  - apply (RM Linear x y t Pl). intros _ ->. exact K.
  - destruct G.
  - rewrite parse_one, dispatch_m15 by exact P. eexists. exists []. split; [reflexivity|]. rewrite app_nil_r. split; [|split; [reflexivity|constructor]].
    cbn [step1 sim_at]. apply MODE; try reflexivity; [repeat split|apply S..].
  - rewrite parse_one, dispatch_m16 by exact P. eexists. exists []. split; [reflexivity|]. rewrite app_nil_r. split; [|split; [reflexivity|constructor]].
    cbn [step1 sim_at]. apply MODE; try reflexivity; [repeat split|apply S..].
  - rewrite parse_one, dispatch_m17 by exact P. eexists. exists []. split; [reflexivity|]. rewrite app_nil_r. split; [|split; [reflexivity|constructor]].
    cbn [step1 sim_at]. apply MODE; try reflexivity; [repeat split|apply S..].
  - rewrite parse_one, dispatch_g05 by exact P. eexists. exists []. split; [reflexivity|]. rewrite app_nil_r. split; [|split; [reflexivity|constructor]].
    cbn [step1 sim_at]. apply MODE; try reflexivity; [repeat split|apply S].
  - (* a slot *)
    cbn in V, G. destruct V as [-> _]. destruct G as (-> & Nx & Ny & _). destruct xs as [ax|]; [|contradiction]. destruct ys as [ay|]; [|contradiction].
    rewrite parse_one. destruct (place_head i d z _ _ _ Ps) as (c & r & Et & Hc).
    assert (NC : forall q, num_char q = false -> q <> "X"%char -> q <> "Y"%char -> q <> "G"%char -> ~ In q (s ++ T "G85" ++ e)).
    { intros q H1 H2 H3 H4 X. apply in_app_or in X as [X|X]; [exact (place_chars i d z _ _ _ q Ps H1 H2 H3 X)|].
      apply in_app_or in X as [X|X]; [|exact (place_chars i d z _ _ _ q Pe H1 H2 H3 X)]. cbn in X. destruct X as [<-|[<-|[<-|[]]]]; [contradiction|discriminate..]. }
    rewrite Et. cbn [app]. rewrite dispatch_slot; [|exact P|exact Hc|..].
    2,3: intros X; refine (NC _ _ _ _ _ _); [..|rewrite Et; right; exact X]; [reflexivity|discriminate..].
    2: { change (c :: r ++ T "G85" ++ e) with ((c :: r) ++ T "G85" ++ e). apply occurs_text_in; [discriminate|]. now exists (c :: r), e. }
    change (c :: r ++ T "G85" ++ e) with ((c :: r) ++ T "G85" ++ e). rewrite <- Et.
    unfold slot_line. rewrite Es. cbn [bind]. rewrite (slot_reads i d z Hr _ _ _ _ _ _ se Ps Pe Ef Ez). cbn [bind].
    set (xe' := match xe with None => Some ax | v => v end). set (ye' := match ye with None => Some ay | v => v end). set (s1 := move_to xe' ye' _).
    set (a := reach false p (Some ax) (Some ay)). set (b := reach false a xe ye).
    assert (Eb : xe' = Some (fst b) /\ ye' = Some (snd b)) by (unfold xe', ye', b, a, reach, put; destruct xe, ye; split; reflexivity).
    assert (S1 : sm Holing low s1 cur false b).
    { eapply (sim_other Holing low st); [exact S|repeat split|reflexivity| | |reflexivity|reflexivity| | |]; try apply S.
      unfold s1, move_to. cbn [x_pos with_pos x_notation add_stmt]. rewrite (s_not _ _ _ _ _ _ _ _ _ _ _ _ S). destruct Eb as [-> ->]. cbn. now destruct b. }
    rewrite (s_state _ _ _ _ _ _ _ _ _ _ _ _ S1). cbn [pst].
    destruct (sim_ensure holesize _ _ _ _ _ _ _ _ s1 cur false _ S1) as (s2 & l & E2 & A2 & S2 & H2 & G2).
    { intros ->. destruct K as [K|K]; [contradiction|exact K]. }
    rewrite E2. cbn [bind]. rewrite A2. unfold add_hit. rewrite A2.
    destruct (sim_slot Holing low s2 (tool_now cur) false _ l a b false true S2 A2) as [S3 M3]; [discriminate|].
    destruct Eb as [-> ->]. eexists. exists [Slot (Some l) (some_point a) (some_point b) false]. split; [reflexivity|]. split; [exact S3|]. split; [cbn; rewrite H2; reflexivity|]. constructor; [exact M3|constructor].
Qed.
Lemma rout_sim_run prog : forall liness st c, sim_at st c -> Forall2 (expresses i d z) prog liness -> tooled_at c prog -> sensible_at c prog ->
  exists st' new c', parse_lines holesize st (List.concat liness) = Ok st' /\ sim_at st' c' /\ x_hits st' = x_hits st ++ new /\ Forall2 (mark_ok (x_store st')) new (marks_at c prog).
Proof.
  induction prog as [|x prog IH]; intros liness st c S F K V.
  - inversion F; subst. exists st, [], c. rewrite app_nil_r. split; [reflexivity|]. split; [exact S|]. split; [reflexivity|]. destruct c as [[[[cur inc] p] act] low]. constructor.
  - inversion F as [|? lines ? liness' Sx F']; subst. cbn [List.concat]. rewrite parse_lines_app.
    destruct (rout_sim_step st c x lines prog S Sx K V) as (s1 & n1 & E1 & S1 & H1 & V1). rewrite E1. cbn [bind].
    destruct (IH liness' s1 (step1 x c) S1 F' (tooled_next _ _ _ K) (sensible_next _ _ _ V)) as (s2 & n2 & c2 & E2 & S2 & H2 & V2).
    exists s2, (n1 ++ n2), c2. split; [exact E2|]. split; [exact S2|]. split; [rewrite H2, H1, app_assoc; reflexivity|]. rewrite marks_cons.
    apply Forall2_app; [|exact V2].
    assert (W : wf s1) by (destruct (step1 x c) as [[[[? ?] ?] ?] ?]; apply S1).
    destruct (parse_lines_wf holesize _ _ _ E2 W) as [_ G].
    clear - V1 G. induction V1 as [|h e hs es V _ IHV]; constructor; [|exact IHV]. eapply mark_grows; eassumption.
Qed.
End Sim.

(** ** Whole files *)
Lemma expresses_nospace i d z x ls : expresses i d z x ls -> Forall nospace ls.
Proof.
  assert (A : forall a t, nospace (T a) -> nospace t -> nospace (T a ++ t)) by (intros; apply Forall_app; auto).
  intros [y t Sy|x0 y t Pl|x0 y t Pl|x0 y t Pl|x0 y t Pl|w x0 y t r v Pl Rd| | | | |xs ys xe ye s e Ps Pe].
  - constructor; [eapply says_nospace; eassumption|constructor].
  - constructor; [|constructor]. apply A; [repeat constructor|eapply place_nospace; eassumption].
  - constructor; [repeat constructor|]. constructor; [eapply place_nospace; eassumption|constructor].
  - constructor; [|constructor]. apply A; [repeat constructor|eapply place_nospace; eassumption].
  - constructor; [repeat constructor|]. constructor; [eapply place_nospace; eassumption|constructor].
  - constructor; [|constructor]. apply A; [destruct w; repeat constructor|]. apply Forall_app; split; [eapply place_nospace; eassumption|]. apply A; [repeat constructor|]. apply nums_space. apply (reads_nums _ _ _ _ _ Rd).
  - repeat constructor.
  - repeat constructor.
  - repeat constructor.
  - repeat constructor.
  - constructor; [|constructor]. apply Forall_app; split; [eapply place_nospace; eassumption|]. apply A; [repeat constructor|eapply place_nospace; eassumption].
Qed.
Lemma body_nospace i d z prog body : Forall2 (expresses i d z) prog body -> Forall nospace (List.concat body).
Proof. intros F. induction F as [|x ls prog body X _ IH]; [constructor|]. cbn [List.concat]. apply Forall_app; split; [eapply expresses_nospace; eassumption|exact IH]. Qed.
Lemma C114_lemma hs se ext fs pre u z fo tu i d xs es hl e prog body tail eol :
  es = [] \/ hs = ToolModel.holesize false ->
  opening fs pre -> format_text fo tu -> (i, d) = format_in fo fs se -> readable i d -> header i d z xs es hl ->
  (e = T "%" \/ e = T "M95") -> Forall2 (expresses i d z) prog body -> (tail = [] \/ tail = [T "M30"]) -> line_end eol ->
  tooled (known xs es ext 1) Holing false prog -> sensible Holing prog -> supported (start_inc se) prog ->
  exists f, parse_raw hs se ext (file_text eol (T "M48" :: pre ++ (unit_text u ++ zeros_text z ++ tu) :: hl ++ e :: List.concat body ++ tail)) = Ok f /\
    Forall2 (mark_as (xf_store f) (wanted u xs es ext)) (xf_hits f) (marks None (start_inc se) (0, 0) Holing false prog) /\
    xs_units (xf_set f) = u /\ xs_format (xf_set f) = (i, d) /\ xs_zeros (xf_set f) = z.
Proof.
  intros HS Fo Ft Ei Hr Fd He Fp Htl Eo K V G. unfold parse_raw.
  assert (NB := body_nospace i d z prog body Fp).
  assert (NT : Forall nospace tail) by (destruct Htl as [->| ->]; repeat constructor).
  assert (NE : nospace e) by (destruct He as [->| ->]; repeat constructor).
  assert (NU : nospace (unit_text u ++ zeros_text z ++ tu)) by (destruct Ft, u, z; repeat constructor).
  assert (ST : forall l, Forall nospace l -> map strip l = l).
  { intros l F. induction F as [|a l H F IH]; [reflexivity|]. cbn [map]. now rewrite IH, strip_nospace. }
  rewrite lines_stripped; [|exact Eo|].
  2: { assert (NL : forall l, Forall nospace l -> Forall no_newline l) by (intros l F; eapply Forall_impl; [|exact F]; exact nospace_nl).
       constructor; [apply nospace_nl; repeat constructor|]. apply Forall_app; split; [eapply opening_lines; eassumption|]. constructor; [now apply nospace_nl|].
       apply Forall_app; split; [eapply header_lines; eassumption|]. constructor; [now apply nospace_nl|]. apply Forall_app; split; auto. }
  destruct (head_start hs se ext fs pre u z fo tu i d xs es hl e HS Fo Ft Ei Hr Fd He) as (s4 & E4 & S4 & H4).
  set (inc := start_inc se) in *. set (D := reached u xs es ext) in *. set (one := known xs es ext 1) in *.
  replace (T "M48" :: pre ++ (unit_text u ++ zeros_text z ++ tu) :: hl ++ e :: List.concat body ++ tail)
    with ((T "M48" :: pre ++ (unit_text u ++ zeros_text z ++ tu) :: hl ++ [e]) ++ List.concat body ++ tail) by (cbn; rewrite <- !app_assoc; cbn; now rewrite <- !app_assoc).
  rewrite (map_app strip _ (List.concat body ++ tail)), (map_app strip (List.concat body) tail), (ST _ NB), (ST tail NT), <- !app_assoc, parse_lines_app, E4. cbn [bind]. rewrite parse_lines_app.
  destruct (rout_sim_run hs i d z u D one Hr prog body s4 (None, inc, (0, 0), Holing, false) S4 Fp (or_intror K) (conj V G)) as (s5 & new & [[[[cur' inc'] p'] act'] low'] & E5 & S5 & H5 & V5).
  rewrite E5. cbn [bind]. rewrite parse_lines_app.
  destruct (sim_settings _ _ _ _ _ _ _ _ _ _ _ _ S5) as (se5 & Es & Ef & Ez & Eu).
  assert (E6 : exists s6, parse_lines hs s5 tail = Ok s6 /\ x_hits s6 = x_hits s5 /\ x_store s6 = x_store s5 /\ settings_of s6 = settings_of s5 /\ x_prev s6 = []).
  { destruct Htl as [->| ->]; [exists s5; cbn; repeat split; auto; apply S5|]. cbn [parse_lines].
    rewrite (dispatch_m30 _ _ se5) by (auto; apply S5). eexists. cbn [bind]. split; [reflexivity|]. repeat split. apply S5. }
  destruct E6 as (s6 & E6 & H6 & St6 & Se6 & P6). rewrite E6. cbn [bind parse_lines]. rewrite dispatch_blank by exact P6. cbn [bind].
  rewrite Se6, Es. cbn [bind]. eexists. split; [reflexivity|]. cbn. rewrite H6, St6, H5, H4. cbn [app].
  split; [|auto]. cbn [marks_at] in V5. clear - V5. induction V5 as [|h x hs' xs' (t & E1 & E2 & E3 & E4) _ IH]; constructor; [|exact IH].
  exists t. split; [exact E1|]. split; [exact E2|]. split; [rewrite E3; apply reached_near|exact E4].
Qed.

(** ** No routing without lowering *)
Section Raised.
Variable holesize : unit_ -> text -> res (option tool).
(** While the tool is raised, the hits of b are those of a and some that are not routed, and the tool stays raised. *)
Definition quiet (a b : xst) : Prop :=
  x_prev b = x_prev a /\ (x_down a = false -> x_down b = false /\ (Forall (fun h => ~ routed h) (x_hits a) -> Forall (fun h => ~ routed h) (x_hits b))).
Lemma quiet_same a b : x_prev b = x_prev a -> (x_down b = x_down a \/ x_down b = false) -> x_hits b = x_hits a -> quiet a b.
Proof. intros E0 E1 E2. split; [exact E0|]. intros E. split; [destruct E1; congruence|now rewrite E2]. Qed.
Lemma quiet_trans a b c : quiet a b -> quiet b c -> quiet a c.
Proof. intros [E1 F1] [E2 F2]. split; [congruence|]. intros E. destruct (F1 E) as [G1 H1]. destruct (F2 G1) as [G2 H2]. auto. Qed.
Ltac ok H := let H' := fresh in rename H into H'; pose proof (ok_inj _ _ H') as H; clear H'; subst.
Ltac same := apply quiet_same; [reflexivity|(left; reflexivity)||(right; reflexivity)|reflexivity].
Lemma get_tool_quiet n st o st' : get_tool n st = Ok (o, st') -> quiet st st'.
Proof.
  unfold get_tool, adopt. destruct (dget n (x_tools st)); [intros H; injection H as <- <-; same|].
  destruct (dget n (x_ctools st)); [|destruct (dget n (x_ext st))]; intros H; try (injection H as <- <-; same);
    apply bind_ok in H as (s & H & K); apply bind_ok in H as (se & _ & H); ok H; injection K as <- <-; same.
Qed.
Lemma ensure_quiet st st' : ensure_tool st = Ok st' -> quiet st st'.
Proof.
  unfold ensure_tool. destruct (x_active st); intros H; [ok H; same|]. apply bind_ok in H as ((o & s) & H & K). ok K. cbn.
  eapply quiet_trans; [eapply get_tool_quiet; exact H|]. same.
Qed.
Lemma add_quiet h st st' : ~ routed h -> add_hit h st = Ok st' -> quiet st st'.
Proof. intros N. unfold add_hit. destruct (x_active st); [|discriminate]. intros H. ok H. split; [reflexivity|]. intros E. split; [exact E|]. cbn. intros F. apply Forall_app. auto. Qed.
Lemma repeat_quiet n : forall dx dy st st', repeat_hits n dx dy st = Ok st' -> quiet st st'.
Proof.
  induction n as [|n IH]; intros dx dy st st' H; cbn [repeat_hits] in H; [ok H; same|].
  apply bind_ok in H as (s & H & K). apply IH in K. eapply quiet_trans; [|exact K]. eapply quiet_trans; [|eapply add_quiet; [|exact H]; cbn; auto]. same.
Qed.
Lemma tool_quiet line st st' : ExcellonModel.tool_line line st = Ok st' -> quiet st st'.
Proof.
  unfold ExcellonModel.tool_line. destruct (_ || _); intros H; [ok H; same|]. apply bind_ok in H as (se & _ & H). apply bind_ok in H as (t & _ & H). ok H. same.
Qed.
Lemma select_quiet line st st' : select_line line st = Ok st' -> quiet st st'.
Proof.
  unfold select_line. intros H. apply bind_ok in H as ((n & c) & _ & H). cbn in H. destruct (n =? 0)%Z; [ok H; same|].
  apply bind_ok in H as ((o & s) & G & H). apply get_tool_quiet in G. eapply quiet_trans; [eapply quiet_trans; [|exact G]; same|].
  destruct o as [l|]; [ok H; same|]. apply bind_ok in H as (se & _ & H). ok H. same.
Qed.
Lemma slot_quiet line st st' : slot_line line st = Ok st' -> quiet st st'.
Proof.
  unfold slot_line. intros H. apply bind_ok in H as (se & _ & H). apply bind_ok in H as ((((xs & ys) & xe) & ye) & _ & H).
  match goal with H : match x_state ?a with _ => _ end = _ |- _ => set (s := a) in *; assert (E0 : quiet st s) by (unfold s; same) end.
  destruct (x_state s); try (ok H; exact E0);
    apply bind_ok in H as (s1 & E1 & H); (eapply quiet_trans; [exact E0|]); (eapply quiet_trans; [eapply ensure_quiet; exact E1|]);
    eapply add_quiet; [|exact H| |exact H]; cbn; auto.
Qed.
Lemma coord_quiet line st st' : coord_line line st = Ok st' -> x_down st = false -> quiet st st'.
Proof.
  unfold coord_line. intros H DN. apply bind_ok in H as (se & _ & H). apply bind_ok in H as (xy & _ & H).
  match goal with H : match x_state ?a with _ => _ end = _ |- _ => set (s := a) in *; assert (E0 : quiet st s) by (unfold s; same) end.
  assert (Ds : x_down s = false) by exact DN. rewrite Ds in H.
  destruct (x_state s); try (ok H; exact E0);
    apply bind_ok in H as (s1 & E1 & H); (eapply quiet_trans; [exact E0|]); (eapply quiet_trans; [eapply ensure_quiet; exact E1|]);
    (eapply add_quiet; [|exact H]; cbn; auto).
Qed.
Lemma rout_quiet m line st st' : rout_line m line st = Ok st' -> x_down st = false -> quiet st st'.
Proof.
  unfold rout_line. intros H DN. apply bind_ok in H as (se & _ & H). apply bind_ok in H as (xy & _ & H).
  destruct m; [ok H; same|]. match type of H with (if x_down ?s then _ else _) = _ => change (x_down s) with (x_down st) in H end.
  rewrite DN in H. ok H. same.
Qed.
Lemma comment_quiet line st st' : comment_line holesize line st = Ok st' -> quiet st st'.
Proof.
  unfold comment_line. intros H. apply bind_ok in H as (s & H0 & H).
  assert (E0 : quiet st s).
  { destruct (text_in (T "FILE_FORMAT") _); [|ok H0; same]. apply bind_ok in H0 as (g & _ & H0). ok H0. same. }
  set (s1 := if text_in (T "TYPE=PLATED") _ then _ else s) in H. set (s2 := if text_in (T "TYPE=NON_PLATED") _ then _ else s1) in H.
  set (s3 := if text_in (T "HEADER:") _ then _ else s2) in H.
  assert (E3 : quiet st s3).
  { apply quiet_trans with s; [exact E0|]. unfold s3, s2, s1. repeat match goal with |- context [if ?b then _ else _] => destruct b end; same. }
  destruct (text_in (T " Holesize ") _); [|ok H; exact E3].
  apply bind_ok in H as (se & _ & H). apply bind_ok in H as (o & Ho & H). destruct o as [t|]; ok H; (eapply quiet_trans; [exact E3|]); same.
Qed.
(** The line kept for the next one begins with G. *)
Definition kept (st : xst) : Prop := match x_prev st with [] => True | c :: _ => c = "G"%char end.
Lemma parse_line_raised st line st' : parse_line holesize st line = Ok st' -> x_down st = false -> kept st -> ~ (exists r, line = T "M15" ++ r) ->
  kept st' /\ x_down st' = false /\ (Forall (fun h => ~ routed h) (x_hits st) -> Forall (fun h => ~ routed h) (x_hits st')).
Proof.
  unfold parse_line. set (L := x_prev st ++ line). cbv zeta. intros H DN KP NM.
  assert (NL : starts_with (T "M15") L = false).
  { destruct (starts_with (T "M15") L) eqn:E; [|reflexivity]. exfalso. unfold L, kept in *. destruct (x_prev st) as [|c r]; [|subst c; discriminate E].
    apply NM. cbn [app] in E. clear - E. destruct line as [|a [|b [|c r]]]; cbn in E; try discriminate; try (rewrite ?Bool.andb_false_r in E; discriminate).
    apply andb_prop in E as [E1 E2]. apply andb_prop in E2 as [E2 E3]. apply andb_prop in E3 as [E3 _]. apply ceq_true in E1, E2, E3. subst. now exists r. }
  set (s0 := with_prev [] st) in *. assert (K0 : x_prev s0 = []) by reflexivity. assert (D0 : x_down s0 = false) by exact DN.
  change (x_hits st) with (x_hits s0).
  assert (Q : quiet s0 st' -> kept st' /\ x_down st' = false /\ (Forall (fun h => ~ routed h) (x_hits s0) -> Forall (fun h => ~ routed h) (x_hits st'))).
  { intros [P R]. destruct (R D0) as [R1 R2]. split; [unfold kept; now rewrite P, K0|auto]. }
  clearbody s0 L. clear st DN KP NM.
  destruct (strip L) as [|c0 L0] eqn:EL; [apply Q; ok H; same|]. rewrite <- EL in *. clear EL c0 L0.
  destruct (match L with d :: _ => ceq d ";" | [] => false end); [apply Q; now apply comment_quiet in H|].
  destruct (starts_with (T "M48") L); [apply Q; ok H; same|].
  destruct (match L with d :: _ => ceq d "%" | [] => false end); [apply Q; ok H; cbn; destruct (x_state s0); same|].
  destruct (starts_with (T "M00") L && is_drill s0).
  { apply Q. destruct (x_active s0) as [l|]; [|discriminate]. destruct (tget (x_store s0) l) as [t|]; [|discriminate].
    apply bind_ok in H as ((o & s) & G & H). apply get_tool_quiet in G. ok H. cbn [fst snd]. eapply quiet_trans; [exact G|]. same. }
  destruct (starts_with (T "M95") L); [apply Q; ok H; destruct (is_header _); same|].
  rewrite NL in H.
  destruct (starts_with (T "M16") L); [apply Q; ok H; same|].
  destruct (starts_with (T "M17") L); [apply Q; ok H; same|].
  destruct (starts_with (T "M30") L).
  { apply Q. apply bind_ok in H as (se & _ & H). apply bind_ok in H as (xy & _ & H). ok H. same. }
  assert (KG : forall p, starts_with ("G"%char :: p) L = true -> st' = with_prev L s0 -> kept st' /\ x_down st' = false /\ (Forall (fun h => ~ routed h) (x_hits s0) -> Forall (fun h => ~ routed h) (x_hits st'))).
  { intros p E ->. split; [|split; [exact D0|auto]]. unfold kept. cbn. destruct L as [|c L]; [exact Logic.I|]. cbn in E. apply andb_prop in E as [E _]. apply ceq_true in E. now symmetry. }
  destruct (starts_with (T "G00") L) eqn:EG; [destruct (teq _ _); [ok H; exact (KG (T "00") EG eq_refl)|apply Q; now apply rout_quiet in H]|].
  destruct (starts_with (T "G01") L) eqn:EG1; [destruct (teq _ _); [ok H; exact (KG (T "01") EG1 eq_refl)|apply Q; now apply rout_quiet in H]|].
  apply Q. clear KG Q.
  destruct (starts_with (T "G05") L); [ok H; same|].
  destruct (text_in (T "INCH") L || text_in (T "METRIC") L).
  { destruct (read_unit L) as [[u z] o]. ok H. destruct o as [[a b]|]; same. }
  destruct (starts_with (T "M71") L || starts_with (T "M72") L); [ok H; same|].
  destruct (starts_with (T "ICI") L); [ok H; same|].
  destruct (starts_with (T "VER") L); [apply bind_ok in H as (n & _ & H); ok H; same|].
  destruct (starts_with (T "FMAT") L); [apply bind_ok in H as (n & _ & H); ok H; same|].
  destruct (starts_with (T "G40") L); [ok H; same|].
  destruct (starts_with (T "G41") L); [ok H; same|].
  destruct (starts_with (T "G42") L); [ok H; same|].
  destruct (starts_with (T "G90") L); [ok H; same|].
  destruct (match L with d :: _ => ceq d "F" | [] => false end); [apply bind_ok in H as (n & _ & H); ok H; same|].
  destruct (match L with d :: _ => ceq d "T" | [] => false end).
  { destruct (is_header s0); [now apply tool_quiet in H|now apply select_quiet in H]. }
  destruct (_ && negb (is_header s0)).
  { apply bind_ok in H as (se & _ & H). apply bind_ok in H as (((n & x) & y) & _ & H).
    eapply quiet_trans; [|eapply repeat_quiet; exact H]. same. }
  destruct (_ || _); [|ok H; same].
  destruct (text_in (T "G85") L); [now apply slot_quiet in H|now apply coord_quiet in H].
Qed.
Lemma parse_lines_raised ls : forall st st', parse_lines holesize st ls = Ok st' -> x_down st = false -> kept st -> Forall (fun l => ~ exists r, l = T "M15" ++ r) ls ->
  Forall (fun h => ~ routed h) (x_hits st) -> Forall (fun h => ~ routed h) (x_hits st').
Proof.
  induction ls as [|l ls IH]; intros st st' H DN KP F N; cbn [parse_lines] in H; [ok H; exact N|].
  apply bind_ok in H as (s & H & K). inversion F as [|? ? F1 F2]; subst. destruct (parse_line_raised _ _ _ H DN KP F1) as (K1 & D1 & N1).
  exact (IH s st' K D1 K1 F2 (N1 N)).
Qed.
Lemma C115_lemma se ext data f : parse_raw holesize se ext data = Ok f -> never_lowers data -> forall h, In h (xf_hits f) -> ~ routed h.
Proof.
  unfold parse_raw. intros H NL. apply bind_ok in H as (st & H & K). apply bind_ok in K as (se' & _ & K). apply ok_inj in K. subst f. cbn [xf_hits].
  apply Forall_forall. apply (parse_lines_raised _ _ _ H eq_refl Logic.I); [|constructor].
  apply Forall_forall. intros l I. unfold lines_of in I. apply in_map_iff in I as (l0 & <- & I). exact (NL l0 I).
Qed.
End Raised.
