From Verif Require Import PyBase QcLib NumModel NumSpec NumProofs FmtProofs GerberText GerberTextProofs ExcellonModel ExcellonFile ExcellonSpec ExcellonProofs ExcellonRun
  ToolModel ToolSpec ToolProofs HeadSpec HeadRun SniffModel SniffSpec.
From Coq Require Import QArith Qcanon.
Open Scope list_scope.
Open Scope Qc_scope.

(** ** Unit statements and format comments *)
Definition mark (s : estmt) : list (zkind + text) :=
  match s with EUnit _ z _ => [inl z] | EComment c => if text_in (T "FILE_FORMAT") c then [inr c] else [] | _ => [] end.
Definition marks (st : xst) : list (zkind + text) := flat_map mark (x_stmts st).
Lemma marks_add s st : marks (add_stmt s st) = marks st ++ mark s.
Proof. unfold marks. cbn. rewrite flat_map_app. cbn. now rewrite app_nil_r. Qed.
Lemma marks_insert t l : flat_map mark (insert_tool t l) = flat_map mark l.
Proof. induction l as [|s l IH]; [reflexivity|]. destruct s; cbn [insert_tool flat_map mark app]; rewrite ?IH; reflexivity. Qed.
(** The same marks, and nothing carried over to the next line. *)
Definition quiet (st st' : xst) : Prop := marks st' = marks st /\ x_prev st' = x_prev st.
Lemma quiet_trans a b c : quiet a b -> quiet b c -> quiet a c.
Proof. intros [A B] [C D]. split; congruence. Qed.
Ltac ok H := let H' := fresh in rename H into H'; pose proof (ok_inj _ _ H') as H; clear H'; subst.
Ltac qt := split; [unfold marks; cbn; rewrite ?flat_map_app; cbn; rewrite ?app_nil_r; reflexivity|reflexivity].
Lemma get_tool_quiet n st o st' : get_tool n st = Ok (o, st') -> quiet st st'.
Proof.
  assert (A : forall l, (do s <- adopt n l st; Ok (Some l, s)) = Ok (o, st') -> quiet st st').
  { intros l H. apply bind_ok in H as (s & H & K). unfold adopt in H. apply bind_ok in H as (se & S & H). ok H. injection K as <- <-. qt. }
  unfold get_tool. destruct (dget n (x_tools st)); [intros H; injection H as <- <-; qt|].
  destruct (dget n (x_ctools st)); [apply A|]. destruct (dget n (x_ext st)); [apply A|]. intros H; injection H as <- <-; qt.
Qed.
Lemma ensure_tool_quiet st st' : ensure_tool st = Ok st' -> quiet st st'.
Proof.
  unfold ensure_tool. destruct (x_active st); intros H; [ok H; qt|]. apply bind_ok in H as ((o & s) & G & H). apply get_tool_quiet in G. ok H. cbn [fst snd].
  eapply quiet_trans; [exact G|]. qt.
Qed.
Lemma add_hit_quiet h st st' : add_hit h st = Ok st' -> quiet st st'.
Proof. unfold add_hit. destruct (x_active st); [|discriminate]. intros H; ok H; qt. Qed.
Lemma repeat_hits_quiet n : forall dx dy st st', repeat_hits n dx dy st = Ok st' -> quiet st st'.
Proof.
  induction n as [|n IH]; intros dx dy st st' H; cbn [repeat_hits] in H; [ok H; qt|]. apply bind_ok in H as (s & H & K). apply IH in K. apply add_hit_quiet in H.
  eapply quiet_trans; [|exact K]. eapply quiet_trans; [|exact H]. qt.
Qed.
Lemma tool_line_quiet line st st' : ExcellonModel.tool_line line st = Ok st' -> quiet st st'.
Proof.
  unfold ExcellonModel.tool_line. destruct (_ || _); intros H; [ok H; qt|]. apply bind_ok in H as (se & _ & H). apply bind_ok in H as (t & R & H). ok H. qt.
Qed.
Lemma select_line_quiet line st st' : select_line line st = Ok st' -> quiet st st'.
Proof.
  unfold select_line. intros H. apply bind_ok in H as ((n & c) & _ & H). cbn in H. destruct (n =? 0)%Z; [ok H; qt|].
  apply bind_ok in H as ((o & s) & G & H). apply get_tool_quiet in G. assert (G0 : quiet st s) by (eapply quiet_trans; [|exact G]; qt). clear G.
  destruct o as [l|]; [ok H; eapply quiet_trans; [exact G0|qt]|]. apply bind_ok in H as (se & _ & H). ok H. eapply quiet_trans; [exact G0|].
  split; [|reflexivity]. unfold marks. cbn. apply marks_insert.
Qed.
Lemma slot_line_quiet line st st' : slot_line line st = Ok st' -> quiet st st'.
Proof.
  unfold slot_line. intros H. apply bind_ok in H as (se & _ & H). apply bind_ok in H as ((((xs & ys) & xe) & ye) & _ & H).
  match goal with H : match x_state ?a with _ => _ end = _ |- _ => set (s := a) in *; assert (E0 : quiet st s) by (unfold s; qt) end.
  destruct (x_state s); try (ok H; exact E0); apply bind_ok in H as (s1 & E1 & H); apply ensure_tool_quiet in E1; apply add_hit_quiet in H; eauto using quiet_trans.
Qed.
Lemma coord_line_quiet line st st' : coord_line line st = Ok st' -> quiet st st'.
Proof.
  unfold coord_line. intros H. apply bind_ok in H as (se & _ & H). apply bind_ok in H as (xy & _ & H).
  match goal with H : match x_state ?a with _ => _ end = _ |- _ => set (s := a) in *; assert (E0 : quiet st s) by (unfold s; qt) end.
  destruct (x_state s); try (ok H; exact E0).
  - apply bind_ok in H as (s1 & E1 & H); apply ensure_tool_quiet in E1; apply add_hit_quiet in H; eauto using quiet_trans.
  - apply bind_ok in H as (s1 & E1 & H); apply ensure_tool_quiet in E1; apply add_hit_quiet in H; eauto using quiet_trans.
  - destruct (x_down s); [|ok H; exact E0]. apply bind_ok in H as (s1 & E1 & H). apply ensure_tool_quiet in E1. ok H.
    eapply quiet_trans; [exact E0|]. eapply quiet_trans; [exact E1|]. qt.
Qed.
Lemma rout_line_quiet m line st st' : rout_line m line st = Ok st' -> quiet st st'.
Proof.
  unfold rout_line. intros H. apply bind_ok in H as (se & _ & H). apply bind_ok in H as (xy & _ & H).
  destruct m; [ok H; qt|]. destruct (x_down _); [|ok H; qt].
  apply bind_ok in H as (s1 & E1 & H). apply ensure_tool_quiet in E1. apply add_hit_quiet in H. eapply quiet_trans; [|exact H]. eapply quiet_trans; [|exact E1]. qt.
Qed.
Lemma starts_g0 c L : starts_with (T "G0" ++ c) L = true -> starts_with (T "G0") L = false -> False.
Proof.
  destruct L as [|a L]; [discriminate|]. cbn [T list_ascii_of_string app starts_with]. destruct (ceq "G" a); [|discriminate].
  destruct L as [|b L]; [discriminate|]. destruct (ceq "0" b); cbn; discriminate.
Qed.
Section Marks.
Variable holesize : unit_ -> text -> res (option tool).
Lemma comment_line_marks line st st' : comment_line holesize line st = Ok st' ->
  marks st' = marks st ++ mark (EComment (lstrip ";"%char line)) /\ x_prev st' = x_prev st /\
  (text_in (T "FILE_FORMAT") (lstrip ";"%char line) = true -> exists l, read_format (lstrip ";"%char line) = Ok l).
Proof.
  unfold comment_line. set (c := lstrip ";"%char line). intros H. apply bind_ok in H as (s & H0 & H).
  assert (E0 : quiet (add_stmt (EComment c) st) s /\ (text_in (T "FILE_FORMAT") c = true -> exists l, read_format c = Ok l)).
  { destruct (text_in (T "FILE_FORMAT") _); [|ok H0; split; [qt|discriminate]]. apply bind_ok in H0 as (g & G & H0). ok H0. split; [qt|eauto]. }
  destruct E0 as [E0 R].
  set (s1 := if text_in (T "TYPE=PLATED") _ then _ else s) in H. set (s2 := if text_in (T "TYPE=NON_PLATED") _ then _ else s1) in H.
  set (s3 := if text_in (T "HEADER:") _ then _ else s2) in H.
  assert (E3 : quiet s s3) by (unfold s3, s2, s1; repeat match goal with |- context [if ?b then _ else _] => destruct b end; qt).
  assert (E : quiet s3 st').
  { destruct (text_in (T " Holesize ") _); [|ok H; qt]. apply bind_ok in H as (se & _ & H). apply bind_ok in H as (o & Ho & H). destruct o as [t|]; ok H; qt. }
  destruct (quiet_trans _ _ _ E0 (quiet_trans _ _ _ E3 E)) as [A B]. rewrite marks_add in A. auto.
Qed.
Lemma parse_line_marks st line st' : parse_line holesize st line = Ok st' -> let L := x_prev st ++ line in
  exists new, marks st' = marks st ++ new /\
    (new = [] \/ (exists z, new = [inl z] /\ text_in (T "INCH") L || text_in (T "METRIC") L = true) \/
     (exists c l, new = [inr c] /\ hd_error L = Some ";"%char /\ c = lstrip ";"%char L /\ text_in (T "FILE_FORMAT") c = true /\ read_format c = Ok l)) /\
    (starts_with (T "G0") L = false -> x_prev st' = []).
Proof.
  unfold parse_line. set (L := x_prev st ++ line). cbv zeta. intros H.
  assert (Q0 : marks (with_prev [] st) = marks st) by reflexivity. assert (P0 : x_prev (with_prev [] st) = []) by reflexivity.
  set (s0 := with_prev [] st) in *. rewrite <- Q0. clear Q0. clearbody s0 L. clear st line.
  assert (QQ : quiet s0 st' -> exists new, marks st' = marks s0 ++ new /\
    (new = [] \/ (exists z, new = [inl z] /\ text_in (T "INCH") L || text_in (T "METRIC") L = true) \/
     (exists c l, new = [inr c] /\ hd_error L = Some ";"%char /\ c = lstrip ";"%char L /\ text_in (T "FILE_FORMAT") c = true /\ read_format c = Ok l)) /\
    (starts_with (T "G0") L = false -> x_prev st' = [])).
  { intros [A B]. exists []. rewrite app_nil_r. split; [exact A|]. split; [now left|]. intros _. congruence. }
  destruct (strip L) as [|c0 L0] eqn:EL; [ok H; apply QQ; qt|]. rewrite <- EL in *. clear EL c0 L0.
  destruct (match L with d :: _ => ceq d ";" | [] => false end) eqn:Semi.
  { apply comment_line_marks in H as (A & B & R). exists (mark (EComment (lstrip ";"%char L))). split; [exact A|]. split; [|intros _; congruence].
    cbn [mark]. destruct (text_in (T "FILE_FORMAT") (lstrip ";"%char L)) eqn:F; [|now left]. right. right. destruct (R eq_refl) as [l Rl].
    exists (lstrip ";"%char L), l. repeat split; auto. destruct L as [|x L]; [discriminate|]. cbn. destruct (ceq_spec x ";"%char); [now subst|discriminate]. }
  clear Semi.
  destruct (starts_with (T "M48") L); [ok H; apply QQ; qt|].
  destruct (match L with d :: _ => ceq d "%" | [] => false end); [ok H; apply QQ; clear QQ; destruct (x_state (add_stmt ERewind s0)); qt|].
  destruct (starts_with (T "M00") L && is_drill s0).
  { destruct (x_active s0) as [l|]; [|discriminate]. destruct (tget (x_store s0) l) as [t|]; [|discriminate].
    apply bind_ok in H as ((o & s) & G & H). apply get_tool_quiet in G. ok H. cbn [fst snd]. apply QQ. eapply quiet_trans; [exact G|]. qt. }
  destruct (starts_with (T "M95") L); [ok H; apply QQ; clear QQ; destruct (is_header _); qt|].
  destruct (starts_with (T "M15") L); [ok H; apply QQ; qt|].
  destruct (starts_with (T "M16") L); [ok H; apply QQ; qt|].
  destruct (starts_with (T "M17") L); [ok H; apply QQ; qt|].
  destruct (starts_with (T "M30") L).
  { apply bind_ok in H as (se & _ & H). apply bind_ok in H as (xy & _ & H). ok H. apply QQ. qt. }
  destruct (starts_with (T "G00") L) eqn:G0.
  { destruct (teq _ _); [ok H|apply rout_line_quiet in H; now apply QQ]. exists []. rewrite app_nil_r. split; [reflexivity|]. split; [now left|]. intros G. exfalso.
    exact (starts_g0 (T "0") _ G0 G). }
  destruct (starts_with (T "G01") L) eqn:G1.
  { destruct (teq _ _); [ok H|apply rout_line_quiet in H; now apply QQ]. exists []. rewrite app_nil_r. split; [reflexivity|]. split; [now left|]. intros G. exfalso.
    exact (starts_g0 (T "1") _ G1 G). }
  destruct (starts_with (T "G05") L); [ok H; apply QQ; qt|].
  destruct (text_in (T "INCH") L || text_in (T "METRIC") L) eqn:U.
  { destruct (read_unit L) as [[u z] o]. ok H. exists [inl z]. split; [|split].
    - rewrite <- (marks_add (EUnit u z o)). destruct o as [[a b]|]; reflexivity.
    - right. left. eauto.
    - intros _. destruct o as [[a b]|]; exact P0. }
  destruct (starts_with (T "M71") L || starts_with (T "M72") L); [ok H; apply QQ; qt|].
  destruct (starts_with (T "ICI") L); [ok H; apply QQ; qt|].
  destruct (starts_with (T "VER") L); [apply bind_ok in H as (n & _ & H); ok H; apply QQ; qt|].
  destruct (starts_with (T "FMAT") L); [apply bind_ok in H as (n & _ & H); ok H; apply QQ; qt|].
  destruct (starts_with (T "G40") L); [ok H; apply QQ; qt|].
  destruct (starts_with (T "G41") L); [ok H; apply QQ; qt|].
  destruct (starts_with (T "G42") L); [ok H; apply QQ; qt|].
  destruct (starts_with (T "G90") L); [ok H; apply QQ; qt|].
  destruct (match L with d :: _ => ceq d "F" | [] => false end); [apply bind_ok in H as (n & _ & H); ok H; apply QQ; qt|].
  destruct (match L with d :: _ => ceq d "T" | [] => false end).
  { apply QQ. destruct (is_header s0); [now apply tool_line_quiet in H|now apply select_line_quiet in H]. }
  destruct (_ && negb (is_header s0)).
  { apply bind_ok in H as (se & _ & H). apply bind_ok in H as (((n & x) & y) & _ & H). apply repeat_hits_quiet in H. apply QQ.
    eapply quiet_trans; [|exact H]. qt. }
  match type of H with (if ?b then _ else _) = _ => destruct b end; [|ok H; apply QQ; qt].
  apply QQ. destruct (text_in (T "G85") L); [now apply slot_line_quiet in H|now apply coord_line_quiet in H].
Qed.
(** *** Formats in comments can be read *)
Definition readable_mark (m : zkind + text) : Prop := match m with inl _ => True | inr c => text_in (T "FILE_FORMAT") c = true /\ exists l, read_format c = Ok l end.
Lemma parse_lines_marks l : forall st st', parse_lines holesize st l = Ok st' -> Forall readable_mark (marks st) -> Forall readable_mark (marks st').
Proof.
  induction l as [|t l IH]; intros st st' H F; cbn [parse_lines] in H; [ok H; exact F|]. apply bind_ok in H as (s & H & K). apply (IH _ _ K).
  destruct (parse_line_marks _ _ _ H) as (new & -> & N & _). apply Forall_app. split; [exact F|]. destruct N as [->|[(z & -> & _)|(c & r & -> & _ & _ & Fc & R)]]; repeat constructor; eauto.
Qed.
(** *** Lines without marks *)
Definition silent (t : text) : Prop := hd_error t <> Some ";"%char /\ starts_with (T "G0") t = false /\ text_in (T "INCH") t = false /\ text_in (T "METRIC") t = false.
Lemma silent_line st t st' : parse_line holesize st t = Ok st' -> x_prev st = [] -> silent t -> marks st' = marks st /\ x_prev st' = [].
Proof.
  intros H E (S1 & S2 & S3 & S4). destruct (parse_line_marks _ _ _ H) as (new & M & N & P). rewrite E in *. cbn [app] in *. rewrite S3, S4 in N. split; [|now apply P].
  destruct N as [->|[(z & _ & X)|(c & r & _ & X & _)]]; [now rewrite app_nil_r in M|discriminate X|contradiction].
Qed.
Lemma silent_lines l : forall st st', parse_lines holesize st l = Ok st' -> x_prev st = [] -> Forall silent l -> marks st' = marks st /\ x_prev st' = [].
Proof.
  induction l as [|t l IH]; intros st st' H E F; cbn [parse_lines] in H; [ok H; auto|]. apply bind_ok in H as (s & H & K). inversion F as [|? ? S F']; subst.
  destruct (silent_line _ _ _ H E S) as [M P]. destruct (IH _ _ K P F') as [M' P']. split; congruence.
Qed.
End Marks.

(** ** The choice *)
Section Choice.
Variable holesize : unit_ -> text -> res (option tool).
Variable pi : Qc.
Lemma area_says f : forall ds, diameters f ds -> hole_area pi (xf_store f) (xf_hits f) = Ok (total (map (fun d => square (pi * d / zq 2)) ds)).
Proof.
  unfold diameters. induction (xf_hits f) as [|h hs IH]; intros ds F; inversion F as [|? d ? ds' (l & t & A & B & C) F']; subst; [reflexivity|].
  cbn [hole_area map total]. rewrite A. cbn [tool_at]. rewrite B. cbn [bind]. rewrite C, (IH _ F'). cbn [bind]. unfold square. f_equal. ring.
Qed.
Lemma area_inv f a : hole_area pi (xf_store f) (xf_hits f) = Ok a -> exists ds, diameters f ds /\ a = total (map (fun d => square (pi * d / zq 2)) ds).
Proof.
  unfold diameters. revert a. induction (xf_hits f) as [|h hs IH]; intros a H; cbn [hole_area] in H; [ok H; exists []; split; [constructor|reflexivity]|].
  apply bind_ok in H as (t & A & H). destruct (t_diam t) as [d|] eqn:D; [|discriminate]. apply bind_ok in H as (b & B & H). ok H. destruct (IH b B) as (ds & F & ->).
  unfold tool_at in A. destruct (hit_tool h) as [l|] eqn:El; [|discriminate]. destruct (tget (xf_store f) l) as [t'|] eqn:Et; [|discriminate]. ok A.
  exists (d :: ds). split; [constructor; [|exact F]; eauto|]. cbn [map total]. unfold square. ring.
Qed.
Lemma guess_proper k fm : proper (fst k) fm -> guess_settings k = Ok (mkXset Inch fm (snd k) Absolute).
Proof.
  unfold proper, guess_settings. intros ->. destruct (Z.ltb_spec (Z.of_nat (fst fm)) 0); [lia|]. destruct (Z.ltb_spec (Z.of_nat (snd fm)) 0); [lia|]. cbn [orb]. rewrite !Nat2Z.id. now destruct fm.
Qed.
Lemma guess_inv k se : guess_settings k = Ok se -> exists fm, proper (fst k) fm /\ se = mkXset Inch fm (snd k) Absolute.
Proof.
  unfold proper, guess_settings. destruct (fst k) as [|a [|b [|c l]]]; try discriminate. destruct (Z.ltb_spec a 0); [discriminate|]. destruct (Z.ltb_spec b 0); [discriminate|]. cbn [orb].
  intros H'. ok H'. exists (Z.to_nat a, Z.to_nat b). cbn [fst snd]. rewrite !Z2Nat.id by assumption. auto.
Qed.
Lemma guess_err k e : guess_settings k = Err e -> e = ValueError.
Proof. unfold guess_settings. destruct (fst k) as [|a [|b [|c l]]]; try congruence. destruct (_ || _); congruence. Qed.
Lemma odd_score v : odd_at (fst (fst v) * snd (fst v)) (snd v) (layer_size_score v).
Proof.
  unfold odd_at, layer_size_score. cbv zeta. destruct (Qc_eq_dec (fst (fst v) * snd (fst v)) 0); [now left|]. right. auto.
Qed.
Lemma odd_unique b h s s' : odd_at b h s -> odd_at b h s' -> s = s'.
Proof. intros [[A B]|[A B]] [[C D]|[C D]]; congruence. Qed.
Lemma oddness_iff data k s : oddness holesize pi data k s <-> exists se v, guess_settings k = Ok se /\ attempt holesize pi data se = Ok v /\ layer_size_score v = s.
Proof.
  split.
  - intros [fm f b ds P R B D O]. exists (mkXset Inch fm (snd k) Absolute). eexists. split; [now apply guess_proper|]. unfold attempt. rewrite R. cbn [bind]. rewrite B. cbn [bind].
    rewrite (area_says f ds D). cbn [bind]. split; [reflexivity|]. eapply odd_unique; [apply odd_score|]. cbn [fst snd]. exact O.
  - intros (se & v & G & A & <-). apply guess_inv in G as (fm & P & ->). unfold attempt in A. apply bind_ok in A as (f & R & A). apply bind_ok in A as (b & B & A). apply bind_ok in A as (a & Ar & A). ok A.
    apply area_inv in Ar as (ds & D & ->). econstructor; try eassumption. apply (odd_score (_, _, _)).
Qed.
Lemma attempts_in data ks : forall rs, attempts holesize pi data ks = Ok rs ->
  forall k v, In (k, v) rs <-> In k ks /\ exists se, guess_settings k = Ok se /\ attempt holesize pi data se = Ok v.
Proof.
  induction ks as [|k0 ks IH]; intros rs H k v; cbn [attempts] in H; [ok H; cbn; tauto|].
  apply bind_ok in H as (se & G & H). apply bind_ok in H as (rs' & A & H). ok H. specialize (IH _ A k v). cbn [In].
  destruct (attempt holesize pi data se) as [v0|e] eqn:E; cbn [In]; rewrite IH; split.
  - intros [X|[X Y]]; [injection X as <- <-; eauto|auto].
  - intros [[<-|X] (se' & G' & E')]; [left; congruence|right; eauto].
  - intros [X Y]; auto.
  - intros [[<-|X] (se' & G' & E')]; [congruence|eauto].
Qed.
Lemma attempts_ok data ks : Forall (fun k => exists fm, proper (fst k) fm) ks -> exists rs, attempts holesize pi data ks = Ok rs.
Proof.
  induction 1 as [|k ks (fm & P) F (rs & IH)]; [now exists []|]. cbn [attempts]. rewrite (guess_proper k fm P). cbn [bind]. rewrite IH. cbn [bind]. eauto.
Qed.
Lemma attempts_err data ks e : attempts holesize pi data ks = Err e -> e = ValueError.
Proof.
  induction ks as [|k ks IH]; cbn [attempts]; [discriminate|]. destruct (guess_settings k) eqn:G; [|intros H; injection H as <-; now apply guess_err in G]. cbn [bind].
  destruct (attempts holesize pi data ks); [discriminate|]. cbn [bind]. exact IH.
Qed.
Lemma least_some q l : exists m, least (q :: l) = Some m.
Proof. cbn. destruct (least l); eauto. Qed.
Lemma least_min l : forall m, least l = Some m -> In m l /\ forall q, In q l -> m <= q.
Proof.
  induction l as [|q l IH]; intros m H; [discriminate|]. cbn in H. destruct (least l) as [m'|] eqn:E.
  - destruct (IH m' eq_refl) as [I L]. destruct (Qclt_le_dec m' q) as [C|C]; injection H as <-.
    + split; [now right|]. intros x [<-|X]; [now apply Qclt_le_weak|auto].
    + split; [now left|]. intros x [<-|X]; [apply Qcle_refl|]. eapply Qcle_trans; [exact C|auto].
  - injection H as <-. split; [now left|]. destruct l as [|x l]; [|destruct (least_some x l) as [m E']; congruence]. intros y [<-|[]]. apply Qcle_refl.
Qed.
Lemma first_with_in {A} m (l : list (A * Qc)) : In m (map snd l) -> exists k, first_with m l = Some k /\ In (k, m) l.
Proof.
  induction l as [|[k q] l IH]; intros I; [destruct I|]. cbn [first_with]. destruct (Qc_eq_dec q m) as [->|N]; [exists k; split; [reflexivity|now left]|].
  destruct I as [I|I]; [contradiction|]. destruct (IH I) as (k' & E & J). exists k'. split; [exact E|now right].
Qed.
Lemma fmt_eqb_true a b : fmt_eqb a b = true -> a = b.
Proof. unfold fmt_eqb. destruct (list_eq_dec Z.eq_dec a b); [auto|discriminate]. Qed.
Lemma zkind_eqb_true a b : zkind_eqb a b = true -> a = b.
Proof. destruct a, b; (reflexivity || discriminate). Qed.
Lemma only_all {A} (eqb : A -> A -> bool) l a : (forall x y, eqb x y = true -> x = y) -> only eqb l = Some a -> forall x, In x l -> x = a.
Proof.
  intros H. destruct l as [|b l]; [discriminate|]. cbn. destruct (forallb (eqb b) l) eqn:E; [|discriminate]. intros X. injection X as <-. intros x [->|I]; [reflexivity|].
  rewrite forallb_forall in E. symmetry. now apply H, E.
Qed.

(** The formats of the comments. *)
Lemma stated_comments l : Forall readable_mark (flat_map mark (map fst l)) -> exists fs, stated_formats_of (map fst l) fs /\ Forall2 (fun c f => read_format c = Ok f) (format_comments l) fs.
Proof.
  induction l as [|[s u] l IH]; intros F; [exists []; split; constructor|]. cbn [map fst flat_map] in F. apply Forall_app in F as [F0 F]. destruct (IH F) as (fs & S & C).
  cbn [map fst]. unfold format_comments. cbn [flat_map fst]. fold (format_comments l).
  assert (Other : (forall c, s <> EComment c) -> exists fs, stated_formats_of (s :: map fst l) fs /\
            Forall2 (fun c f => read_format c = Ok f) ((match s with EComment c => if text_in (T "FILE_FORMAT") c then [c] else [] | _ => [] end) ++ format_comments l) fs).
  { intros N. exists fs. split; [apply stated_other; [now apply other_any|exact S]|]. destruct s; try exact C. destruct (N t eq_refl). }
  destruct s; try (apply Other; discriminate). clear Other. cbn [mark] in F0. destruct (text_in (T "FILE_FORMAT") t) eqn:E.
  - inversion F0 as [|? ? X _]; subst. destruct X as [_ (f & R)]. exists (f :: fs). split; [|constructor; assumption]. apply stated_one; [|exact S]. constructor; [|exact R]. apply text_in_occurs; [discriminate|exact E].
  - exists fs. split; [|exact C]. apply stated_other; [|exact S]. apply other_comment. intros O. apply occurs_text_in in O; [|discriminate]. congruence.
Qed.
Lemma parse_raw_marks se ext data f : parse_raw holesize se ext data = Ok f -> Forall readable_mark (flat_map mark (map fst (xf_stmts f))).
Proof.
  unfold parse_raw. intros H. apply bind_ok in H as (st & P & H). apply bind_ok in H as (se' & _ & H). ok H. cbn [xf_stmts]. rewrite map_map. cbn [fst]. rewrite map_id.
  apply (parse_lines_marks _ _ _ _ P). constructor.
Qed.
Lemma detected_says l fs : Forall2 (fun c f => read_format c = Ok f) (format_comments l) fs -> detected_format l = Ok (single fs).
Proof.
  unfold detected_format. intros F. destruct F as [|c f cs fs R F]; [reflexivity|]. destruct F as [|c' f' cs fs R' F]; cbn [single]; [now rewrite R|reflexivity].
Qed.
Definition option_formats (fs : list (list Z)) : list (list Z) := match single fs with Some f => [f] | None => [[2; 4]; [2; 5]; [3; 3]]%Z end.
Definition option_zeros (zs : list zkind) : list zkind := match single zs with Some z => [z] | None => [ZLead; ZTrail] end.
Lemma option_formats_in fs f : In f (option_formats fs) <-> possible_format fs f.
Proof. unfold option_formats, possible_format. destruct fs as [|a [|b l]]; cbn; intuition. Qed.
Lemma option_zeros_in zs z : In z (option_zeros zs) <-> possible_zeros zs z.
Proof. unfold option_zeros, possible_zeros. destruct zs as [|a [|b l]]; cbn; try (destruct z; tauto). intuition. Qed.
Lemma options_in fs zs k : In k (flat_map (fun z => map (fun f => (f, z)) (option_formats fs)) (option_zeros zs)) <-> possible fs zs k.
Proof.
  rewrite in_flat_map. unfold possible. rewrite <- option_formats_in, <- option_zeros_in. split.
  - intros (z & I & J). apply in_map_iff in J as (f & <- & J). auto.
  - intros [A B]. exists (snd k). split; [exact B|]. apply in_map_iff. exists (fst k). split; [now destruct k|exact A].
Qed.
Lemma detect_eq data f0 fs : parse_raw holesize x_default [] data = Ok f0 -> Forall2 (fun c f => read_format c = Ok f) (format_comments (xf_stmts f0)) fs ->
  detect holesize pi data =
  match single fs, single (stated_zeros f0) with
  | Some f, Some z => Ok (f, z)
  | df, dz =>
      do rs <- attempts holesize pi data (flat_map (fun z => map (fun f => (f, z)) (option_formats fs)) (option_zeros (stated_zeros f0)));
      match or_else (only fmt_eqb (map (fun r => fst (fst r)) rs)) df, or_else (only zkind_eqb (map (fun r => snd (fst r)) rs)) dz with
      | Some f, Some z => Ok (f, z)
      | _, _ =>
          match least (map snd (map (fun r => (fst r, layer_size_score (snd r))) rs)) with
          | None => Err ValueError
          | Some m => match first_with m (map (fun r => (fst r, layer_size_score (snd r))) rs) with
                      | Some k => Ok k
                      | None => Err TypeError
                      end
          end
      end
  end.
Proof.
  intros P F. unfold detect. rewrite P. cbn [bind]. rewrite (detected_says _ _ F). cbn [bind]. fold (stated_zeros f0). change (unit_zeros (xf_stmts f0)) with (stated_zeros f0).
  unfold option_formats, option_zeros. destruct (single fs), (single (stated_zeros f0)); reflexivity.
Qed.
End Choice.

Section Choice2.
Variable holesize : unit_ -> text -> res (option tool).
Variable pi : Qc.
Lemma choice data f0 fs : parse_raw holesize x_default [] data = Ok f0 -> Forall2 (fun c f => read_format c = Ok f) (format_comments (xf_stmts f0)) fs ->
  (List.length fs <> 1%nat \/ List.length (stated_zeros f0) <> 1%nat) -> (forall l, fs = [l] -> exists fm, proper l fm) ->
  match detect holesize pi data with
  | Ok k => possible fs (stated_zeros f0) k /\ exists s, oddness holesize pi data k s /\ forall k' s', possible fs (stated_zeros f0) k' -> oddness holesize pi data k' s' -> s <= s'
  | Err e => e = ValueError /\ forall k s, possible fs (stated_zeros f0) k -> ~ oddness holesize pi data k s
  end.
Proof.
  intros P F N W. rewrite (detect_eq holesize pi data f0 fs P F). set (zs := stated_zeros f0) in *.
  set (ks := flat_map (fun z => map (fun f => (f, z)) (option_formats fs)) (option_zeros zs)).
  assert (Wk : Forall (fun k => exists fm, proper (fst k) fm) ks).
  { apply Forall_forall. intros k I. apply options_in in I as [A _]. unfold possible_format in A. destruct fs as [|l [|l' r]].
    - destruct A as [->|[->| ->]]; [exists (2, 4)%nat|exists (2, 5)%nat|exists (3, 3)%nat]; reflexivity.
    - rewrite A. now apply W.
    - destruct A as [->|[->| ->]]; [exists (2, 4)%nat|exists (2, 5)%nat|exists (3, 3)%nat]; reflexivity. }
  destruct (attempts_ok holesize pi data ks Wk) as (rs & A).
  assert (In_rs : forall k s, possible fs zs k /\ oddness holesize pi data k s <-> exists v, In (k, v) rs /\ layer_size_score v = s).
  { intros k s. rewrite <- options_in, oddness_iff. fold ks. split.
    - intros (I & se & v & G & At & E). exists v. split; [|exact E]. apply (attempts_in holesize pi data ks rs A). eauto.
    - intros (v & I & E). apply (attempts_in holesize pi data ks rs A) in I as (I & se & G & At). split; [exact I|]. eauto. }
  assert (E : (match single fs, single zs with Some f, Some z => Ok (f, z) | df, dz => do rs <- attempts holesize pi data ks;
      match or_else (only fmt_eqb (map (fun r => fst (fst r)) rs)) df, or_else (only zkind_eqb (map (fun r => snd (fst r)) rs)) dz with
      | Some f, Some z => Ok (f, z)
      | _, _ => match least (map snd (map (fun r => (fst r, layer_size_score (snd r))) rs)) with
          | None => Err ValueError
          | Some m => match first_with m (map (fun r => (fst r, layer_size_score (snd r))) rs) with Some k => Ok k | None => Err TypeError end
          end
      end end) = 
      match or_else (only fmt_eqb (map (fun r => fst (fst r)) rs)) (single fs), or_else (only zkind_eqb (map (fun r => snd (fst r)) rs)) (single zs) with
      | Some f, Some z => Ok (f, z)
      | _, _ => match least (map snd (map (fun r => (fst r, layer_size_score (snd r))) rs)) with
          | None => Err ValueError
          | Some m => match first_with m (map (fun r => (fst r, layer_size_score (snd r))) rs) with Some k => Ok k | None => Err TypeError end
          end
      end).
  { rewrite A. cbn [bind]. destruct fs as [|a [|b fs']]; cbn [single]; try (destruct (single zs); reflexivity). destruct zs as [|z [|z' zs']]; cbn [single]; try reflexivity. cbn in N. lia. }
  fold ks. rewrite E. clear E.
  assert (C : rs = [] \/ exists k v, In (k, v) rs) by (destruct rs as [|[k v] rs']; [now left|right; exists k, v; now left]).
  destruct C as [->|(k0 & v0 & I0)].
  { cbn. assert (Z : (match single fs, single zs with Some f, Some z => Ok (f, z) | _, _ => Err ValueError end : res (list Z * zkind)) = Err ValueError).
    { destruct fs as [|a [|b fs']]; cbn [single]; try reflexivity. destruct zs as [|z [|z' zs']]; cbn [single]; try reflexivity. cbn in N. lia. }
    rewrite Z. split; [reflexivity|]. intros k s Pk O. destruct (proj1 (In_rs k s) (conj Pk O)) as (v & I & _). destruct I. }
  assert (G : match (match least (map snd (map (fun r => (fst r, layer_size_score (snd r))) rs)) with
          | None => Err ValueError
          | Some m => match first_with m (map (fun r => (fst r, layer_size_score (snd r))) rs) with Some k => Ok k | None => Err TypeError end
          end) with
    | Ok k => possible fs zs k /\ exists s, oddness holesize pi data k s /\ forall k' s', possible fs zs k' -> oddness holesize pi data k' s' -> s <= s'
    | Err e => e = ValueError /\ forall k s, possible fs zs k -> ~ oddness holesize pi data k s
    end).
  { set (sc := map (fun r => (fst r, layer_size_score (snd r))) rs).
    assert (Isc : forall k s, In (k, s) sc <-> exists v, In (k, v) rs /\ layer_size_score v = s).
    { intros k s. unfold sc. rewrite in_map_iff. split; [intros ([k' v'] & E & I); injection E as <- <-; eauto|intros (v & I & <-); exists (k, v); auto]. }
    destruct (least (map snd sc)) as [m|] eqn:Lm.
    - destruct (least_min _ _ Lm) as [Im Mm]. destruct (first_with_in m sc Im) as (k & -> & Ik). apply Isc, In_rs in Ik as [Pk O]. split; [exact Pk|]. exists m. split; [exact O|].
      intros k' s' Pk' O'. apply Mm. apply in_map_iff. exists (k', s'). split; [reflexivity|]. apply Isc, In_rs. auto.
    - exfalso. assert (In (k0, layer_size_score v0) sc) by (apply Isc; eauto). destruct sc as [|x sc']; [contradiction|]. cbn [map] in Lm. destruct (least_some (snd x) (map snd sc')) as [m Em]. congruence. }
  destruct (or_else (only fmt_eqb (map (fun r => fst (fst r)) rs)) (single fs)) as [f|] eqn:Df; [|exact G].
  destruct (or_else (only zkind_eqb (map (fun r => snd (fst r)) rs)) (single zs)) as [z|] eqn:Dz; [|exact G]. clear G.
  assert (K : forall k v, In (k, v) rs -> k = (f, z)).
  { intros k v I. assert (Pk : possible fs zs k) by (apply options_in; fold ks; apply (attempts_in holesize pi data ks rs A) in I; tauto). destruct Pk as [Pf Pz]. rewrite (surjective_pairing k). f_equal.
    - destruct (only fmt_eqb (map (fun r => fst (fst r)) rs)) as [g|] eqn:Eo.
      + injection Df as <-. apply (only_all fmt_eqb _ _ fmt_eqb_true Eo). apply in_map_iff. exists (k, v). auto.
      + cbn in Df. unfold possible_format in Pf. destruct fs as [|a [|b fs']]; try discriminate. injection Df as <-. exact Pf.
    - destruct (only zkind_eqb (map (fun r => snd (fst r)) rs)) as [g|] eqn:Eo.
      + injection Dz as <-. apply (only_all zkind_eqb _ _ zkind_eqb_true Eo). apply in_map_iff. exists (k, v). auto.
      + cbn in Dz. unfold possible_zeros in Pz. destruct zs as [|a [|b zs']]; try discriminate. injection Dz as <-. exact Pz. }
  assert (k0 = (f, z)) by (eapply K; exact I0). subst k0.
  destruct (proj2 (In_rs (f, z) (layer_size_score v0))) as [Pk O]; [eauto|]. split; [exact Pk|]. exists (layer_size_score v0). split; [exact O|].
  intros k' s' Pk' O'. destruct (proj1 (In_rs k' s') (conj Pk' O')) as (v' & I' & E'). assert (k' = (f, z)) by (eapply K; exact I'). subst k'.
  apply oddness_iff in O as (se & v1 & G1 & A1 & E1). apply oddness_iff in O' as (se' & v2 & G2 & A2 & E2). assert (se' = se) by congruence. subst se'. assert (v2 = v1) by congruence. subst v2.
  rewrite <- E1, <- E2. apply Qcle_refl.
Qed.
Lemma C98_lemma data f0 : parse_raw holesize x_default [] data = Ok f0 -> exists fs, stated_formats f0 fs /\
  (forall l z, fs = [l] -> stated_zeros f0 = [z] -> detect holesize pi data = Ok (l, z)) /\
  ((List.length fs <> 1%nat \/ List.length (stated_zeros f0) <> 1%nat) -> (forall l, fs = [l] -> exists fm, proper l fm) ->
   match detect holesize pi data with
   | Ok k => possible fs (stated_zeros f0) k /\ exists s, oddness holesize pi data k s /\ forall k' s', possible fs (stated_zeros f0) k' -> oddness holesize pi data k' s' -> s <= s'
   | Err e => e = ValueError /\ forall k s, possible fs (stated_zeros f0) k -> ~ oddness holesize pi data k s
   end).
Proof.
  intros P. destruct (stated_comments _ (parse_raw_marks _ _ _ _ _ P)) as (fs & S & F). exists fs. split; [exact S|]. split.
  - intros l z -> Z. rewrite (detect_eq holesize pi data f0 [l] P F), Z. reflexivity.
  - now apply choice.
Qed.
Lemma detect_error data e : parse_raw holesize x_default [] data = Err e -> detect holesize pi data = Err e.
Proof. intros H. unfold detect. now rewrite H. Qed.
Lemma detect_unreadable data ext e : parse_raw holesize x_default [] data = Err e -> detect holesize pi data = Err e /\ loads holesize pi data None ext = Err e.
Proof. intros H. pose proof (detect_error data e H) as D. split; [exact D|]. unfold loads. now rewrite D. Qed.
End Choice2.
