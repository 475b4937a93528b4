(** Lemmas for the properties of drill files beyond the drilling semantics. *)
From Verif Require Import PyBase QcLib NumModel NumSpec NumProofs FmtModel FmtProofs Regex GerberText GerberTextProofs MacroProofs
  ExcellonModel ExcellonFile ExcellonSpec ExcellonProofs ExcellonRun DecimalProofs.
From Coq Require Import Permutation Lqa.
Open Scope list_scope.
Open Scope Qc_scope.

(** ** Absolute and incremental programs *)
Lemma plain_cons_known one p l : tool_known one (to_increments p l) <-> tool_known one l.
Proof. revert p. induction l as [|[n| | |x y|k dx dy] l IH]; intros p; cbn; rewrite ?IH; tauto. Qed.
Lemma plain_cons_known' one p l : tool_known one (to_positions p l) <-> tool_known one l.
Proof. revert p. induction l as [|[n| | |x y|k dx dy] l IH]; intros p; cbn; rewrite ?IH; tauto. Qed.
Lemma holes_increments l : forall cur p, plain l -> holes cur true p (to_increments p l) = holes cur false p l.
Proof.
  induction l as [|[n| | |x y|k dx dy] l IH]; intros cur p H; cbn in *; try tauto.
  - now apply IH.
  - assert (E : shift p (option_map (fun v => v - fst p) x) (option_map (fun v => v - snd p) y) = put p x y).
    { unfold shift, put. destruct x, y; cbn; f_equal; ring. }
    rewrite E. f_equal. now apply IH.
  - f_equal. now apply IH.
Qed.
Lemma holes_positions l : forall cur p, plain l -> holes cur false p (to_positions p l) = holes cur true p l.
Proof.
  induction l as [|[n| | |x y|k dx dy] l IH]; intros cur p H; cbn in *; try tauto.
  - now apply IH.
  - assert (E : put p (option_map (fun v => fst p + v) x) (option_map (fun v => snd p + v) y) = shift p x y).
    { unfold shift, put. destruct x, y; cbn; f_equal; ring. }
    rewrite E. f_equal. now apply IH.
  - f_equal. now apply IH.
Qed.

Lemma C37_lemma holesize se u z fo tu i d defs dl e prog body body' tail eol :
  format_text fo tu -> (i, d) = match fo with Some f => f | None => xs_format se end -> readable i d ->
  Forall2 (defines i d z) defs dl -> (e = T "%" \/ e = T "M95") -> (tail = [] \/ tail = [T "M30"]) -> line_end eol ->
  plain prog -> tool_known (is_defined 1 defs) prog ->
  (Forall2 (says i d z) prog body -> Forall2 (says i d z) (to_increments (0, 0) prog) body' ->
   exists f f',
     parse_raw holesize se [] (file_text eol (T "M48" :: (unit_text u ++ zeros_text z ++ tu) :: dl ++ e :: (T "ICI,OFF" :: body) ++ tail)) = Ok f /\
     parse_raw holesize se [] (file_text eol (T "M48" :: (unit_text u ++ zeros_text z ++ tu) :: dl ++ e :: (T "ICI,ON" :: body') ++ tail)) = Ok f' /\
     map (hole_view (xf_store f)) (xf_hits f) = map (hole_view (xf_store f')) (xf_hits f') /\
     List.length (xf_hits f) = List.length (holes None false (0, 0) prog)) /\
  (Forall2 (says i d z) prog body' -> Forall2 (says i d z) (to_positions (0, 0) prog) body ->
   exists f f',
     parse_raw holesize se [] (file_text eol (T "M48" :: (unit_text u ++ zeros_text z ++ tu) :: dl ++ e :: (T "ICI,OFF" :: body) ++ tail)) = Ok f /\
     parse_raw holesize se [] (file_text eol (T "M48" :: (unit_text u ++ zeros_text z ++ tu) :: dl ++ e :: (T "ICI,ON" :: body') ++ tail)) = Ok f' /\
     map (hole_view (xf_store f)) (xf_hits f) = map (hole_view (xf_store f')) (xf_hits f') /\
     List.length (xf_hits f) = List.length (holes None true (0, 0) prog)).
Proof.
  intros Ft Ei Hr Fd He Htl Eo P K. split; intros F1 F2.
  - destruct (C36_lemma holesize se u z fo tu i d defs dl e (Abs :: prog) (T "ICI,OFF" :: body) tail eol) as (f & E & V & _); auto.
    { constructor; [constructor|exact F1]. }
    destruct (C36_lemma holesize se u z fo tu i d defs dl e (Inc :: to_increments (0, 0) prog) (T "ICI,ON" :: body') tail eol) as (f' & E' & V' & _); auto.
    { constructor; [constructor|exact F2]. } { cbn. now apply plain_cons_known. }
    exists f, f'. split; [exact E|]. split; [exact E'|]. cbn [holes] in V, V'. rewrite holes_increments in V' by exact P.
    split; [congruence|]. apply (f_equal (@List.length _)) in V. now rewrite !map_length in V.
  - destruct (C36_lemma holesize se u z fo tu i d defs dl e (Abs :: to_positions (0, 0) prog) (T "ICI,OFF" :: body) tail eol) as (f & E & V & _); auto.
    { constructor; [constructor|exact F2]. } { cbn. now apply plain_cons_known'. }
    destruct (C36_lemma holesize se u z fo tu i d defs dl e (Inc :: prog) (T "ICI,ON" :: body') tail eol) as (f' & E' & V' & _); auto.
    { constructor; [constructor|exact F1]. }
    exists f, f'. split; [exact E|]. split; [exact E'|]. cbn [holes] in V, V'. rewrite holes_positions in V by exact P.
    split; [congruence|]. apply (f_equal (@List.length _)) in V. now rewrite !map_length in V.
Qed.

(** ** Repeated holes *)
Lemma repeat_hits_spec l n : forall st dx dy p k, x_active st = Some l -> x_pos st = along p dx dy k ->
  exists st', repeat_hits n dx dy st = Ok st' /\ x_active st' = Some l /\ x_pos st' = along p dx dy (k + n) /\
    x_hits st' = x_hits st ++ map (fun j => Hit (Some l) (along p dx dy j)) (seq (S k) n) /\
    x_tools st' = x_tools st /\ x_notation st' = x_notation st /\ x_state st' = x_state st /\ x_stmts st' = x_stmts st.
Proof.
  induction n as [|n IH]; intros st dx dy p k A P.
  - exists st. rewrite Nat.add_0_r. cbn. rewrite app_nil_r. auto 10.
  - cbn [repeat_hits]. set (s1 := with_pos _ st). assert (P1 : x_pos s1 = along p dx dy (S k)) by (unfold s1; cbn [x_pos with_pos]; rewrite P; apply along_S).
    assert (A1 : x_active s1 = Some l) by exact A. unfold add_hit. rewrite A1, P1. cbn [bind].
    match goal with |- context [repeat_hits n dx dy ?s] => destruct (IH s dx dy p (S k) A P1) as (s3 & E & A3 & P3 & H3 & R) end.
    exists s3. split; [exact E|]. split; [exact A3|]. split; [now rewrite <- Nat.add_succ_comm|]. split; [|exact R].
    rewrite H3. cbn. now rewrite <- app_assoc.
Qed.
Lemma C38_lemma holesize i d z st l n ds dx dy tx ty :
  x_prev st = [] -> x_state st <> SHeader -> x_format st = [Z.of_nat i; Z.of_nat d] -> readable i d -> x_zeros st = z ->
  x_active st = Some l -> digit_string ds -> ds <> [] -> int_of ds = Z.of_nat n ->
  field_reads i d z "X" tx dx -> field_reads i d z "Y" ty dy ->
  exists st', parse_line holesize st (T "R" ++ ds ++ tx ++ ty) = Ok st' /\
    x_hits st' = x_hits st ++ map (fun j => Hit (Some l) (along (x_pos st) (val dx) (val dy) j)) (seq 1 n) /\
    x_pos st' = along (x_pos st) (val dx) (val dy) n /\ x_active st' = Some l /\
    x_tools st' = x_tools st /\ x_notation st' = x_notation st /\ x_state st' = x_state st.
Proof.
  intros P S F Hr Ez A Dd Nd En Fx Fy. set (se := mkXset (x_units st) (i, d) (x_zeros st) (x_notation st)).
  assert (Es : settings_of st = Ok se) by (now apply settings_fmt).
  assert (HD : is_header st = false) by (unfold is_header; destruct (x_state st); congruence).
  assert (C : forall c, num_char c = false -> ~ In c (T "X") -> ~ In c (T "Y") -> ~ In c (ds ++ tx ++ ty)).
  { intros c H1 H2 H3 I. apply nums_letters in I; [|now apply digits_nums|exact H1].
    apply in_app_or in I as [I|I]; [exact (field_chars i d z _ _ _ c Fx H1 H2 I)|exact (field_chars i d z _ _ _ c Fy H1 H3 I)]. }
  assert (RR : read_repeat se (T "R" ++ ds ++ tx ++ ty) = Ok (Z.of_nat n, dx, dy)) by (apply (read_repeat_says i d z); auto).
  cbn [T list_ascii_of_string app] in *. rewrite dispatch_r; [|exact P|exact HD|apply C; cbn; intuition discriminate..].
  rewrite Es. cbn [bind]. rewrite RR. cbn [bind]. rewrite Nat2Z.id.
  destruct (repeat_hits_spec l n (add_stmt (ERepeat (Z.of_nat n) dx dy) st) (val dx) (val dy) (x_pos st) 0) as (s & E & A' & P' & H' & T' & N' & S' & _);
    [exact A|now rewrite along_0|].
  exists s. split; [exact E|]. repeat split; auto.
Qed.

(** ** Written numbers *)
Lemma usable_readable i d : usable_format i d -> readable i d.
Proof. unfold usable_format, readable. lia. Qed.
Lemma write_reads i d se v : usable_format i d -> xs_format se = (i, d) -> grid_value i d v ->
  exists t, write_value se v = Ok t /\ reads i d (xs_zeros se) t v.
Proof.
  intros U F (k & K & ->). unfold write_value. rewrite F.
  destruct (C01_lemma i d (suppression (xs_zeros se)) k U K) as (t & W & R). exists t. split; [exact W|].
  assert (P : forall t', reads i d (xs_zeros se) t t' -> t' = grid k d).
  { intros v' Rv. apply (reads_parse i d (xs_zeros se) t v' se) in Rv; auto; [|now apply usable_readable].
    unfold parse_value in Rv. rewrite F, R in Rv. now apply ok_inj in Rv. }
  assert (SH : exists s ds, t = sign_text s ++ ds /\ digit_string ds /\ ds <> [] /\ (List.length ds <= i + d)%nat).
  { rewrite grid_dec in W. rewrite write_spec in W; [|exact U|rewrite scaled_dec; exact K]. apply ok_inj in W. rewrite scaled_dec in W.
    destruct (Z.eqb_spec (Z.abs k) 0) as [E|E].
    - subst t. exists NoSign, (T "0"). repeat split; [|discriminate|destruct U; cbn; lia]. constructor; [left; reflexivity|constructor].
    - pose proof (suppress_sub (suppression (xs_zeros se)) (dig (i + d) (Z.abs k)) (dig_digits _ _)) as [SD SL]. rewrite dig_length in SL.
      exists (if is_neg (dec k d) then Minus else NoSign), (suppress (suppression (xs_zeros se)) (dig (i + d) (Z.abs k))). split; [|split; [|split]].
      + rewrite <- W. destruct (is_neg (dec k d)); reflexivity.
      + now apply digit_string_iff.
      + apply suppress_nonempty. rewrite dval_dig, Z.mod_small; [exact E|]. split; [lia|]. exact K.
      + exact SL. }
  destruct SH as (s & ds & -> & D1 & D2 & D3). pose proof (reads_digits i d (xs_zeros se) s ds D1 D2 D3) as Rd.
  rewrite <- (P _ Rd). exact Rd.
Qed.
Lemma field_written i d se c o : usable_format i d -> xs_format se = (i, d) -> grid_opt i d o ->
  exists t, field se c o = Ok t /\ field_reads i d (xs_zeros se) (String c EmptyString) t o.
Proof.
  intros U F G. destruct o as [v|]; cbn [field].
  - destruct (write_reads i d se v U F G) as (t & -> & R). exists (c :: t). split; [reflexivity|]. exact (field_some i d (xs_zeros se) (String c EmptyString) t v R).
  - exists []. split; [reflexivity|constructor].
Qed.

Lemma C40_coordinate_lemma i d se s u x y : usable_format i d -> xs_format se = (i, d) -> grid_opt i d x -> grid_opt i d y -> (x <> None \/ y <> None) ->
  exists t, write_stmt se s (ECoord None x y, u) = Ok t /\ read_xy se t = Ok (x, y).
Proof.
  intros U F Gx Gy N. destruct (field_written i d se "X" x U F Gx) as (tx & Wx & Fx). destruct (field_written i d se "Y" y U F Gy) as (ty & Wy & Fy).
  exists (tx ++ ty). cbn [write_stmt fst]. rewrite Wx, Wy. split; [reflexivity|]. apply (read_xy_says i d (xs_zeros se)); auto. now apply usable_readable.
Qed.

Lemma strip_prefix_g c r : c <> "G"%char -> strip_prefix (T "G85") (c :: r) = None.
Proof. intros H. cbn. destruct (ceq "G"%char c) eqn:E; [|reflexivity]. apply ceq_true in E. congruence. Qed.
Lemma split_text_absent s : ~ In "G"%char s -> forall fuel, split_text fuel (T "G85") s = [s].
Proof.
  induction s as [|c s IH]; intros N [|fuel]; try reflexivity. cbn [split_text]. rewrite strip_prefix_g by (intros ->; apply N; now left).
  rewrite IH; [reflexivity|]. intros I. apply N. now right.
Qed.
Lemma split_text_found b a : ~ In "G"%char a -> forall fuel, (List.length a < fuel)%nat -> exists f',
  split_text fuel (T "G85") (a ++ T "G85" ++ b) = a :: split_text f' (T "G85") b.
Proof.
  induction a as [|c a IH]; intros N fuel L; destruct fuel as [|fuel]; try (cbn in L; lia).
  - exists fuel. reflexivity.
  - cbn [app split_text]. rewrite strip_prefix_g by (intros ->; apply N; now left).
    destruct (IH (fun I => N (or_intror I)) fuel) as [f' E]; [cbn in L; lia|]. rewrite E. eauto.
Qed.
Definition or_else (a b : option Qc) : option Qc := match a with Some _ => a | None => b end.
Lemma C40_slot_lemma i d se s u xs ys xe ye : usable_format i d -> xs_format se = (i, d) ->
  grid_opt i d xs -> grid_opt i d ys -> grid_opt i d xe -> grid_opt i d ye -> (xs <> None \/ ys <> None) -> (xe <> None \/ ye <> None) ->
  exists t, write_stmt se s (ESlot xs ys xe ye, u) = Ok t /\ read_slot se t = Ok (xs, ys, or_else xe xs, or_else ye ys).
Proof.
  intros U F G1 G2 G3 G4 N1 N2. destruct (field_written i d se "X" xs U F G1) as (t1 & W1 & F1). destruct (field_written i d se "Y" ys U F G2) as (t2 & W2 & F2).
  destruct (field_written i d se "X" xe U F G3) as (t3 & W3 & F3). destruct (field_written i d se "Y" ye U F G4) as (t4 & W4 & F4).
  exists (t1 ++ t2 ++ T "G85" ++ t3 ++ t4). cbn [write_stmt fst]. rewrite W1, W2, W3, W4. split; [reflexivity|].
  assert (NG : forall a b oa ob, field_reads i d (xs_zeros se) "X" a oa -> field_reads i d (xs_zeros se) "Y" b ob -> ~ In "G"%char (a ++ b)).
  { intros a b oa ob A B I. apply in_app_or in I as [I|I]; [exact (field_chars i d _ _ _ _ "G"%char A eq_refl ltac:(cbn; intuition discriminate) I)|
      exact (field_chars i d _ _ _ _ "G"%char B eq_refl ltac:(cbn; intuition discriminate) I)]. }
  unfold read_slot. rewrite app_assoc. destruct (split_text_found (t3 ++ t4) (t1 ++ t2) (NG _ _ _ _ F1 F2) (S (List.length ((t1 ++ t2) ++ T "G85" ++ t3 ++ t4)))) as [f' E].
  { rewrite !app_length. lia. }
  rewrite E, (split_text_absent _ (NG _ _ _ _ F3 F4)).
  rewrite (read_xy_says i d (xs_zeros se) t1 t2 xs ys se F1 F2 N1 (usable_readable _ _ U) F eq_refl).
  rewrite (read_xy_says i d (xs_zeros se) t3 t4 xe ye se F3 F4 N2 (usable_readable _ _ U) F eq_refl). cbn [bind fst snd]. destruct xe, ye; reflexivity.
Qed.
Lemma C40_repeat_lemma i d se s u n x y : usable_format i d -> xs_format se = (i, d) -> (0 <= n)%Z -> grid_opt i d x -> grid_opt i d y ->
  x <> Some 0 -> y <> Some 0 ->
  exists t, write_stmt se s (ERepeat n x y, u) = Ok t /\ read_repeat se t = Ok (n, x, y).
Proof.
  intros U F Hn Gx Gy Zx Zy. assert (NZ : forall o, o <> Some 0 -> nonzero o = o).
  { intros [q|] H; [|reflexivity]. cbn. destruct (qceq_spec q 0); [congruence|reflexivity]. }
  destruct (field_written i d se "X" x U F Gx) as (tx & Wx & Fx). destruct (field_written i d se "Y" y U F Gy) as (ty & Wy & Fy).
  cbn [write_stmt fst]. rewrite !NZ by assumption. rewrite Wx, Wy. eexists. split; [reflexivity|].
  unfold show_int. replace (n <? 0)%Z with false by (symmetry; apply Z.ltb_ge; lia).
  pose proof (read_repeat_says i d (xs_zeros se) (Z.to_nat n) (show_nat n) tx ty x y se) as R. rewrite Z2Nat.id in R by exact Hn. apply R; auto.
  - apply digit_string_iff, show_nat_digits.
  - apply show_nat_nonempty.
  - rewrite int_of_dval by (apply digit_string_iff, show_nat_digits). now apply dval_show_nat.
  - now apply usable_readable.
Qed.
Lemma show2_spec n : (0 <= n)%Z -> digit_string (show2 n) /\ int_of (show2 n) = n /\ (2 <= List.length (show2 n))%nat /\
  ((n < 100)%Z -> List.length (show2 n) = 2%nat) /\ ((n < 1000)%Z -> (List.length (show2 n) <= 3)%nat).
Proof.
  intros H. unfold show2.
  assert (D : digit_string (show_nat n)) by (apply digit_string_iff, show_nat_digits).
  assert (V : int_of (show_nat n) = n) by (rewrite int_of_dval by exact D; now apply dval_show_nat).
  assert (L : List.length (show_nat n) = ndig n) by (unfold show_nat; apply dig_length).
  assert (N2 : (n < 100)%Z -> (ndig n <= 2)%nat) by (intros; apply ndig_le; [split; [lia|]; change (10 ^ Z.of_nat 2)%Z with 100%Z; lia|lia]).
  assert (N3 : (n < 1000)%Z -> (ndig n <= 3)%nat) by (intros; apply ndig_le; [split; [lia|]; change (10 ^ Z.of_nat 3)%Z with 1000%Z; lia|lia]).
  destruct (Z.leb_spec 0 n) as [H0|H0]; [|lia]. cbn [andb]. destruct (Z.ltb_spec n 10) as [H1|H1].
  - assert (N1 : ndig n = 1%nat).
    { pose proof (ndig_pos n). assert (ndig n <= 1)%nat; [|lia]. apply ndig_le; [|lia]. split; [lia|]. change (10 ^ Z.of_nat 1)%Z with 10%Z. lia. }
    split; [constructor; [left; reflexivity|exact D]|]. split; [|cbn [List.length]; rewrite L, N1; lia].
    rewrite int_of_dval in V by exact D. rewrite int_of_dval by (constructor; [left; reflexivity|exact D]). rewrite dval_cons, V. reflexivity.
  - unfold show_int. replace (n <? 0)%Z with false by (symmetry; apply Z.ltb_ge; lia). rewrite L.
    assert (N4 : (2 <= ndig n)%nat).
    { pose proof (ndig_bound n H) as B. pose proof (ndig_pos n). destruct (Nat.eq_dec (ndig n) 1) as [E|E]; [|lia]. rewrite E in B. change (10 ^ Z.of_nat 1)%Z with 10%Z in B. lia. }
    repeat split; auto. intros H2. specialize (N2 H2). lia.
Qed.
Lemma C40_selection_lemma se s u n : (0 <= n < 1000)%Z ->
  exists t, write_stmt se s (ESel n None, u) = Ok ("T"%char :: t) /\ read_sel t = Ok (n, None).
Proof.
  intros H. destruct (show2_spec n ltac:(lia)) as (D & V & L & _ & L3). exists (show2 n). cbn [write_stmt fst]. rewrite app_nil_r. split; [reflexivity|].
  rewrite read_sel_short; [now rewrite V|exact D|intros E; rewrite E in L; cbn in L; lia|apply L3; lia].
Qed.
Lemma C40_selection_comp_lemma se s u n c : (0 <= n < 100)%Z -> (0 <= c)%Z ->
  exists t, write_stmt se s (ESel n (Some c), u) = Ok ("T"%char :: t) /\ read_sel t = Ok (n, Some c).
Proof.
  intros H Hc. destruct (show2_spec n ltac:(lia)) as (D & V & L & L2 & _). destruct (show2_spec c Hc) as (Dc & Vc & Lc & _).
  exists (show2 n ++ show2 c). cbn [write_stmt fst]. split; [reflexivity|]. rewrite read_sel_long; [now rewrite V, Vc|exact D|apply L2; lia|exact Dc|exact Lc].
Qed.

(** ** Writing and reading back a file *)
Lemma params_app i d z l1 t1 l2 t2 : params_say i d z l1 t1 -> params_say i d z l2 t2 -> params_say i d z (l1 ++ l2) (t1 ++ t2).
Proof. intros P Q. induction P as [|c t v l r I R P IH]; [exact Q|]. cbn [app]. rewrite <- app_assoc. now constructor. Qed.
Definition one_param (c : ascii) (o : option Qc) : list (ascii * Qc) := match o with Some v => [(c, v)] | None => [] end.
Lemma field_params i d se c o : usable_format i d -> xs_format se = (i, d) -> In c tool_letters -> grid_opt i d o ->
  exists t, field se c o = Ok t /\ params_say i d (xs_zeros se) (one_param c o) t.
Proof.
  intros U F I G. destruct (field_written i d se c o U F G) as (t & W & R). exists t. split; [exact W|].
  inversion R as [|t' v R' E1 E2]; subst; cbn [one_param]; [constructor|]. cbn [T list_ascii_of_string app].
  rewrite <- (app_nil_r t'). constructor; [exact I|exact R'|constructor].
Qed.
Definition tool_params (t : tool) : list (ascii * Qc) :=
  one_param "B" (t_retract t) ++ one_param "F" (t_feed t) ++ one_param "H" (t_maxhit t) ++
  one_param "S" (option_map (fun r => r / zq 1000) (t_rpm t)) ++ one_param "C" (t_diam t) ++ one_param "Z" (t_depth t).
Lemma param_app c l m : param c (l ++ m) = match param c m with Some v => Some v | None => param c l end.
Proof.
  induction l as [|[x v] l IH]; cbn [app param]; [destruct (param c m); reflexivity|]. rewrite IH. destruct (param c m); reflexivity.
Qed.
Lemma tool_params_c t : param "C"%char (tool_params t) = t_diam t.
Proof.
  unfold tool_params. rewrite !param_app. destruct (t_retract t), (t_feed t), (t_maxhit t), (t_rpm t), (t_diam t), (t_depth t); reflexivity.
Qed.
Lemma exact_decimal_reads i d z v padding : exact_decimal d v -> reads i d z (decimal_string v d padding) v.
Proof.
  intros (k & K & -> & H). destruct (C64_lemma k d d padding K (le_n d) H) as (a & b & -> & Da & Na & Db & V & _).
  pose proof (reads_point i d z (if (k <? 0)%Z then Minus else NoSign) a b Da Db) as R.
  assert (N : a ++ b <> []) by (intros X; apply app_eq_nil in X as [X _]; contradiction). specialize (R N). rewrite V in R.
  replace (grid k d) with (signed (if (k <? 0)%Z then Minus else NoSign) (grid (Z.abs k) d)).
  - destruct (k <? 0)%Z; exact R.
  - rewrite !grid_dec. destruct (Z.ltb_spec k 0); cbn [signed]; [rewrite Z.abs_neq, dec_opp by lia; ring|now rewrite Z.abs_eq by lia].
Qed.
Lemma write_tool_defines i d se t : usable_format i d -> xs_format se = (i, d) -> writable_tool i d t ->
  exists line, write_tool se t = Ok line /\ defines i d (xs_zeros se) (mkDef (t_num t) (tool_params t)) line.
Proof.
  intros U F ((Hn & Hn') & GB & GF & GH & GZ & GS & GC).
  destruct (field_params i d se "B" _ U F ltac:(cbn; tauto) GB) as (tb & WB & PB).
  destruct (field_params i d se "F" _ U F ltac:(cbn; tauto) GF) as (tf & WF & PF).
  destruct (field_params i d se "H" _ U F ltac:(cbn; tauto) GH) as (th & WH & PH).
  destruct (field_params i d se "Z" _ U F ltac:(cbn; tauto) GZ) as (tz & WZ & PZ).
  unfold write_tool. rewrite WB, WF, WH, WZ. cbn [bind].
  assert (SS : exists ts, match t_rpm t with
          | None => Ok []
          | Some r => if qclt r (zq 100000) then do v <- write_value se (r / zq 1000); Ok ("S"%char :: v)
                      else Ok ("S"%char :: fmt_g 6 (r / zq 1000))
          end = Ok ts /\ params_say i d (xs_zeros se) (one_param "S" (option_map (fun r => r / zq 1000) (t_rpm t))) ts).
  { destruct (t_rpm t) as [r|]; [|exists []; split; [reflexivity|constructor]]. destruct GS as [G1 G2].
    destruct (field_params i d se "S" (Some (r / zq 1000)) U F ltac:(cbn; tauto) G2) as (ts & WS & PS). exists ts. split; [|exact PS].
    destruct (qclt_spec r (zq 100000)) as [Q|Q]; [exact WS|]. exfalso. apply Q. exact G1. }
  destruct SS as (ts & -> & PS). cbn [bind].
  assert (CC : params_say i d (xs_zeros se) (one_param "C" (t_diam t)) (match t_diam t with None => [] | Some q => "C"%char :: decimal_string q (snd (xs_format se)) true end)).
  { destruct (t_diam t) as [v|]; [|constructor]. cbn [one_param]. rewrite F. cbn [snd]. rewrite <- (app_nil_r (decimal_string v d true)).
    constructor; [cbn; tauto|now apply exact_decimal_reads|constructor]. }
  eexists. split; [reflexivity|]. destruct (show2_spec (t_num t) ltac:(lia)) as (D & V & L & _).
  change ("T"%char :: show2 (t_num t) ++ ?r) with (T "T" ++ show2 (t_num t) ++ r). constructor; [exact D|intros X; rewrite X in L; cbn in L; lia|exact V|].
  unfold tool_params. repeat (apply params_app; [assumption|]). assumption.
Qed.

Definition at_point (p : point) : instr := At (Some (fst p)) (Some (snd p)).
Definition positions (s : list tool) (n : Z) (hs : list hit) : list point :=
  flat_map (fun h => match h, tool_of s h with Hit _ p, Some t => if (t_num t =? n)%Z then [p] else [] | _, _ => [] end) hs.
Definition job (f : xfile) (nl_ : Z * tloc) : list instr := Use (fst nl_) :: map at_point (positions (xf_store f) (fst nl_) (xf_hits f)).

Section Write.
Variables (i d : nat) (f : xfile).
Hypothesis U : usable_format i d.
Hypothesis F : xs_format (xf_set f) = (i, d).
Hypothesis TK : forall n l, In (n, l) (xf_tools f) -> exists t, nth_error (xf_store f) l = Some t /\ t_num t = n /\ writable_tool i d t.
Notation z := (xs_zeros (xf_set f)).
Notation se := (xf_set f).

Lemma write_hits_says n hs : Forall (drill_hit f i d) hs ->
  exists lines, write_hits se (xf_store f) n hs = Ok lines /\ Forall2 (says i d z) (map at_point (positions (xf_store f) n hs)) lines.
Proof.
  induction 1 as [|h hs (k & l & x & y & -> & I & Gx & Gy) HS (lines & W & S)]; [exists []; split; [reflexivity|constructor]|].
  destruct (TK k l I) as (t & E & En & _). cbn [write_hits hit_tool]. unfold tool_at, tget. rewrite E. cbn [bind].
  cbn [positions flat_map tool_of]. rewrite E. destruct (t_num t =? n)%Z; [|exists lines; split; assumption].
  destruct (field_written i d se "X" (Some x) U F Gx) as (tx & Wx & Fx). destruct (field_written i d se "Y" (Some y) U F Gy) as (ty & Wy & Fy).
  cbn [write_stmt fst snd]. rewrite Wx. cbn [bind]. rewrite Wy. cbn [bind mode_text app]. rewrite W. cbn [bind].
  exists ((tx ++ ty) :: lines). split; [reflexivity|]. cbn [app map]. constructor; [|exact S].
  constructor; [exact Fx|exact Fy|left; discriminate].
Qed.
Hypothesis HH : Forall (drill_hit f i d) (xf_hits f).
Lemma write_jobs_says tools : (forall n l, In (n, l) tools -> In (n, l) (xf_tools f)) ->
  exists lines, write_jobs se (xf_store f) (xf_hits f) tools = Ok lines /\ Forall2 (says i d z) (flat_map (job f) tools) lines.
Proof.
  induction tools as [|[n l] tools IH]; intros S; [exists []; split; [reflexivity|constructor]|].
  destruct (TK n l (S n l (or_introl eq_refl))) as (t & E & En & (Hn & Hn') & _).
  destruct IH as (lines & W & P); [intros; apply S; now right|].
  destruct (write_hits_says n (xf_hits f) HH) as (hl & WH & PH).
  cbn [write_jobs]. unfold tool_at, tget. rewrite E. cbn [bind write_stmt fst]. rewrite En, WH. cbn [bind]. rewrite W. cbn [bind].
  eexists. split; [reflexivity|]. cbn [flat_map]. unfold job at 1. cbn [fst app]. constructor.
  - rewrite app_nil_r. destruct (show2_spec n ltac:(lia)) as (D & V & L & _ & L3).
    apply (says_use i d z n (show2 n)); [exact D|intros X; rewrite X in L; cbn in L; lia|apply L3; lia|exact V].
  - apply Forall2_app; assumption.
Qed.
Lemma holes_at n ps : forall l p, holes (Some n) false p (map at_point ps ++ l) = map (fun q => (n, q)) ps ++ holes (Some n) false (last ps p) l.
Proof.
  induction ps as [|q ps IH]; intros l p; [reflexivity|]. cbn [map app]. change (at_point q :: map at_point ps ++ l) with ([at_point q] ++ (map at_point ps ++ l)).
  cbn [app holes at_point]. unfold put. cbn. destruct q as [x y]. cbn. f_equal. rewrite IH. f_equal. f_equal. destruct ps; [reflexivity|]. 
  assert (LS : forall (A : Type) (l : list A) a b, l <> [] -> last l a = last l b) by (intros A l0 a b; induction l0 as [|c [|c' l0] IHl]; intros; [contradiction|reflexivity|apply IHl; discriminate]).
  change (last ((x, y) :: p0 :: ps) p) with (last (p0 :: ps) p). apply LS. discriminate.
Qed.
Lemma holes_jobs tools : (forall n l, In (n, l) tools -> n <> 0%Z) -> forall cur p,
  holes cur false p (flat_map (job f) tools) = flat_map (fun e => map (fun q => (fst e, q)) (positions (xf_store f) (fst e) (xf_hits f))) tools.
Proof.
  induction tools as [|[n l] tools IH]; intros N cur p; [reflexivity|]. cbn [flat_map]. unfold job at 1. cbn [fst app holes].
  assert (n <> 0)%Z as N0 by (apply (N n l); now left). apply Z.eqb_neq in N0. rewrite N0. rewrite holes_at. f_equal. apply IH. intros; eapply N; right; eassumption.
Qed.
Lemma known_jobs one tools : (forall n l, In (n, l) tools -> n <> 0%Z) -> tool_known one (flat_map (job f) tools).
Proof. destruct tools as [|[n l] tools]; intros N; [exact I|]. cbn. left. apply (N n l). now left. Qed.
End Write.

Lemma defined_tools (ts : list tool) t : NoDup (map t_num ts) -> In t ts ->
  defined (t_num t) (map (fun t => mkDef (t_num t) (tool_params t)) ts) = Some (mkDef (t_num t) (tool_params t)).
Proof.
  induction ts as [|x ts IH]; intros N I; [destruct I|]. cbn in N. inversion N as [|? ? N1 N2]; subst. cbn [map defined d_num].
  destruct I as [->|I].
  - assert (D : defined (t_num t) (map (fun t0 => mkDef (t_num t0) (tool_params t0)) ts) = None).
    { clear - N1. induction ts as [|y ts IH]; [reflexivity|]. cbn [map defined d_num]. rewrite IH by (intros I; apply N1; now right).
      destruct (Z.eqb_spec (t_num y) (t_num t)) as [E|E]; [exfalso; apply N1; left; exact E|reflexivity]. }
    rewrite D, Z.eqb_refl. reflexivity.
  - now rewrite IH.
Qed.

Lemma mapM_app {A B} (g : A -> res B) l m : mapM g (l ++ m) = do a <- mapM g l; do b <- mapM g m; Ok (a ++ b).
Proof.
  induction l as [|x l IH]; cbn [app mapM]; [destruct (mapM g m); reflexivity|]. destruct (g x); [|reflexivity]. cbn [bind]. rewrite IH.
  destruct (mapM g l); [|reflexivity]. cbn [bind]. destruct (mapM g m); reflexivity.
Qed.

Lemma filter_flat {A B} (g : B -> bool) (h : A -> list B) l : filter g (flat_map h l) = flat_map (fun x => filter g (h x)) l.
Proof. induction l as [|x l IH]; [reflexivity|]. cbn [flat_map]. now rewrite filter_app, IH. Qed.

Lemma C41_lemma holesize f i d locs : usable_format i d -> xs_format (xf_set f) = (i, d) -> xs_notation (xf_set f) = Absolute ->
  plain_header f locs -> same_units f -> Permutation locs (map snd (xf_tools f)) -> NoDup (map fst (xf_tools f)) ->
  (forall n l, In (n, l) (xf_tools f) -> exists t, nth_error (xf_store f) l = Some t /\ t_num t = n /\ writable_tool i d t) ->
  Forall (drill_hit f i d) (xf_hits f) ->
  exists text f', write_file f = Ok text /\ parse_raw holesize (xf_set f) [] text = Ok f' /\
    (xs_units (xf_set f') = xs_units (xf_set f) /\ xs_format (xf_set f') = xs_format (xf_set f) /\ xs_zeros (xf_set f') = xs_zeros (xf_set f)) /\
    (forall h, In h (xf_hits f') -> hole_view (xf_store f') h <> None) /\
    forall n, filter (by_tool n) (map (hole_view (xf_store f')) (xf_hits f')) = filter (by_tool n) (map (hole_view (xf_store f)) (xf_hits f)).
Proof.
  intros U F NA (fo & e & rest & HS & He & Hrest) SU PM ND TK HH.
  (* the tools of the header *)
  assert (LT : exists ts, Forall2 (fun l t => nth_error (xf_store f) l = Some t /\ writable_tool i d t) locs ts).
  { assert (X : forall l, In l locs -> exists t, nth_error (xf_store f) l = Some t /\ writable_tool i d t).
    { intros l I. apply (Permutation_in _ PM) in I. apply in_map_iff in I as ([n l'] & E & I). cbn in E. subst l'.
      destruct (TK n l I) as (t & E & _ & W). eauto. }
    clear - X. induction locs as [|l locs IH]; [exists []; constructor|]. destruct (X l (or_introl eq_refl)) as (t & Et).
    destruct IH as [ts Ets]; [intros; apply X; now right|]. exists (t :: ts). now constructor. }
  destruct LT as [ts LT].
  assert (NT : NoDup (map t_num ts)).
  { assert (P1 : Permutation (map t_num ts) (map fst (xf_tools f))).
    { assert (E1 : map (fun l => match nth_error (xf_store f) l with Some t => t_num t | None => 0%Z end) locs = map t_num ts).
      { clear - LT. induction LT as [|l t locs ts [E _] _ IH]; [reflexivity|]. cbn. now rewrite E, IH. }
      assert (E2 : map (fun l => match nth_error (xf_store f) l with Some t => t_num t | None => 0%Z end) (map snd (xf_tools f)) = map fst (xf_tools f)).
      { rewrite map_map. apply map_ext_in. intros [n l] I. cbn. destruct (TK n l I) as (t & -> & En & _). exact En. }
      rewrite <- E1, <- E2. now apply Permutation_map. }
    eapply Permutation_NoDup; [symmetry; exact P1|exact ND]. }
  set (defs := map (fun t => mkDef (t_num t) (tool_params t)) ts).
  assert (WD : exists dl, mapM (fun l => match nth_error (xf_store f) l with Some t => write_tool (xf_set f) t | None => Err AttributeError end) locs = Ok dl /\
    Forall2 (defines i d (xs_zeros (xf_set f))) defs dl).
  { unfold defs. clear - LT U F. induction LT as [|l t locs ts [E W] _ (dl & ED & FD)]; [exists []; split; [reflexivity|constructor]|].
    destruct (write_tool_defines i d (xf_set f) t U F W) as (line & WL & D). exists (line :: dl). cbn [mapM map]. rewrite E, WL. cbn [bind]. rewrite ED. split; [reflexivity|].
    constructor; assumption. }
  destruct WD as (dl & WD & FD).
  destruct (write_jobs_says i d f U F TK HH (xf_tools f) (fun n l H => H)) as (body & WB & PB).
  set (el := match e with ERewind => T "%" | _ => T "M95" end).
  assert (WH : mapM (write_stmt (xf_set f) (xf_store f)) (before_sel (xf_stmts f)) =
    Ok (T "M48" :: (unit_text (xs_units (xf_set f)) ++ zeros_text (xs_zeros (xf_set f)) ++ []) :: dl ++ [el])).
  { destruct (xf_stmts f) as [|[s1 u1] [|[s2 u2] l2]] eqn:EX; try discriminate. cbn [map fst] in HS. injection HS as -> -> HS.
    assert (u2 = xs_units (xf_set f)) as E2 by (apply (SU (EUnit (xs_units (xf_set f)) (xs_zeros (xf_set f)) fo) u2); rewrite EX; right; left; reflexivity).
    assert (BS : exists us ue, before_sel l2 = map (fun lu => (ETool (fst lu), snd lu)) (combine locs us) ++ [(e, ue)] /\ List.length us = List.length locs).
    { clear - HS He Hrest. revert l2 HS. induction locs as [|l locs IH]; intros l2 HS.
      - destruct l2 as [|[s u] l2]; [discriminate|]. cbn [map fst app] in HS. injection HS as -> HS. exists [], u. split; [|reflexivity]. cbn.
        assert (before_sel l2 = []) as B.
        { destruct rest as [|r rest]; destruct l2 as [|[s' u'] l2]; try discriminate; [reflexivity|]. cbn in HS. injection HS as -> _. destruct r; try contradiction. reflexivity. }
        destruct He as [->| ->]; cbn; now rewrite B.
      - destruct l2 as [|[s u] l2]; [discriminate|]. cbn [map fst app] in HS. injection HS as -> HS. destruct (IH l2 HS) as (us & ue & E & L).
        exists (u :: us), ue. cbn [before_sel is_sel fst combine map app snd]. cbn. rewrite E. split; [reflexivity|]. cbn. now rewrite L. }
    destruct BS as (us & ue & BS & LU). cbn [before_sel]. cbn [is_sel fst]. cbn [mapM write_stmt fst snd bind]. rewrite BS, mapM_app.
    assert (M1 : mapM (write_stmt (xf_set f) (xf_store f)) (map (fun lu => (ETool (fst lu), snd lu)) (combine locs us)) = Ok dl).
    { rewrite <- WD. clear - LU. revert us LU. induction locs as [|l locs IH]; intros [|u us] L; try discriminate; [reflexivity|]. cbn [combine map mapM fst snd].
      cbn [write_stmt fst]. unfold tget. rewrite IH by (cbn in L; lia). reflexivity. }
    rewrite M1. cbn [bind]. subst u2. rewrite app_nil_r.
    assert (M2 : mapM (write_stmt (xf_set f) (xf_store f)) [(e, ue)] = Ok [el]) by (unfold el; destruct He as [->| ->]; reflexivity).
    rewrite M2. cbn [bind]. unfold unit_text, zeros_text. destruct (xs_units (xf_set f)), (xs_zeros (xf_set f)); reflexivity. }
  assert (NZ : forall n l, In (n, l) (xf_tools f) -> n <> 0%Z).
  { intros n l I. destruct (TK n l I) as (t & _ & En & (Hn & _) & _). lia. }
  destruct (C36_lemma holesize (xf_set f) (xs_units (xf_set f)) (xs_zeros (xf_set f)) None [] i d defs dl el (flat_map (job f) (xf_tools f)) body [T "M30"] [nl]) as (f' & P & V & SU1 & SF1 & SZ1).
  { constructor. } { now rewrite F. } { now apply usable_readable. } { exact FD. } { unfold el. destruct He as [->| ->]; [now left|now right]. }
  { exact PB. } { now right. } { now left. } { apply known_jobs; assumption. }
  eexists. exists f'. split; [unfold write_file, write_lines; rewrite WH; cbn [bind]; rewrite WB; cbn [bind]; reflexivity|]. split.
  { rewrite <- P. f_equal. unfold join_lines, file_text. f_equal. f_equal. cbn [app]. rewrite <- !app_assoc. reflexivity. }
  split; [rewrite SU1, SF1, SZ1, F; auto|].
  split; [intros h J X; apply (in_map (hole_view (xf_store f'))) in J; rewrite V, X in J; apply in_map_iff in J as (? & ? & _); discriminate|].
  intros n. rewrite V. unfold start_inc. rewrite NA. rewrite holes_jobs by exact NZ.
  (* both sides *)
  assert (DI : forall k l, In (k, l) (xf_tools f) -> exists t, nth_error (xf_store f) l = Some t /\ t_num t = k /\ diameter defs (xs_units (xf_set f)) k = t_diam t).
  { intros k l I. destruct (TK k l I) as (t & E & En & _). exists t. split; [exact E|]. split; [exact En|]. unfold diameter, defs. rewrite <- En.
    rewrite defined_tools; [apply tool_params_c|exact NT|].
    assert (In l locs) as IL by (apply (Permutation_in _ (Permutation_sym PM)); apply in_map_iff; exists (k, l); auto).
    clear - LT IL E. induction LT as [|l' t' locs ts [E' _] _ IH]; [destruct IL|]. destruct IL as [->|IL]; [left; congruence|right; auto]. }
  assert (R1 : forall tools, (forall k l, In (k, l) tools -> In (k, l) (xf_tools f)) -> NoDup (map fst tools) ->
    filter (by_tool n) (map (fun h => Some (fst h, diameter defs (xs_units (xf_set f)) (fst h), snd h))
       (flat_map (fun e => map (fun q => (fst e, q)) (positions (xf_store f) (fst e) (xf_hits f))) tools)) =
    if in_dec Z.eq_dec n (map fst tools) then map (fun q => Some (n, diameter defs (xs_units (xf_set f)) n, q)) (positions (xf_store f) n (xf_hits f)) else []).
  { induction tools as [|[k l] tools IH]; intros S N; [reflexivity|]. cbn [flat_map map fst]. rewrite map_app, filter_app.
    cbn [map fst] in N. inversion N as [|? ? N1 N2]; subst. rewrite IH by (auto; intros; apply S; now right). rewrite map_map. cbn [fst snd].
    destruct (Z.eq_dec k n) as [->|NE].
    - destruct (in_dec Z.eq_dec n (map fst tools)) as [I|_]; [contradiction|]. rewrite app_nil_r.
      destruct (in_dec Z.eq_dec n (n :: map fst tools)) as [_|C]; [|exfalso; apply C; now left].
      induction (positions (xf_store f) n (xf_hits f)) as [|q ps IHp]; [reflexivity|]. cbn [map filter by_tool]. rewrite Z.eqb_refl. now rewrite IHp.
    - assert (FN : filter (by_tool n) (map (fun x => Some (k, diameter defs (xs_units (xf_set f)) k, x)) (positions (xf_store f) k (xf_hits f))) = []).
      { induction (positions (xf_store f) k (xf_hits f)) as [|q ps IHp]; [reflexivity|]. cbn [map filter by_tool]. apply Z.eqb_neq in NE. rewrite NE. exact IHp. }
      rewrite FN. cbn [app]. destruct (in_dec Z.eq_dec n (map fst tools)) as [I|I]; destruct (in_dec Z.eq_dec n (k :: map fst tools)) as [J|J]; auto.
      + exfalso. apply J. now right.
      + exfalso. destruct J; [congruence|contradiction]. }
  rewrite (R1 (xf_tools f)) by auto.
  assert (R2 : forall hs, Forall (drill_hit f i d) hs -> filter (by_tool n) (map (hole_view (xf_store f)) hs) =
    map (fun q => Some (n, diameter defs (xs_units (xf_set f)) n, q)) (positions (xf_store f) n hs)).
  { induction 1 as [|h hs (k & l & x & y & -> & I & _) HS' IH]; [reflexivity|]. destruct (DI k l I) as (t & E & En & Ed).
    assert (HV : hole_view (xf_store f) (Hit (Some l) (x, y)) = Some (t_num t, t_diam t, (x, y))) by (unfold hole_view; cbn [tool_of]; now rewrite E).
    assert (PS : positions (xf_store f) n (Hit (Some l) (x, y) :: hs) = (if (t_num t =? n)%Z then [(x, y)] else []) ++ positions (xf_store f) n hs).
    { unfold positions. cbn [flat_map tool_of]. now rewrite E. }
    rewrite PS. cbn [map filter]. rewrite HV. cbn [by_tool]. destruct (Z.eqb_spec (t_num t) n) as [X|X].
    - cbn [app map]. rewrite IH. assert (KN : k = n) by congruence. rewrite KN in Ed. rewrite Ed, X. reflexivity.
    - exact IH. }
  rewrite R2 by exact HH. destruct (in_dec Z.eq_dec n (map fst (xf_tools f))) as [I|I]; [reflexivity|].
  assert (PE : positions (xf_store f) n (xf_hits f) = []).
  { clear - HH TK I. unfold positions. induction HH as [|h hs (k & l & x & y & -> & J & _) HS' IH]; [reflexivity|]. cbn [flat_map tool_of].
    destruct (TK k l J) as (t & -> & En & _). destruct (Z.eqb_spec (t_num t) n) as [X|X]; [|exact IH].
    exfalso. apply I. apply in_map_iff. exists (k, l). split; [cbn; congruence|exact J]. }
  now rewrite PE.
Qed.

(** ** Unit conversion *)
Lemma conv_factor u v : conv u v = factor u v.
Proof.
  destruct u; cbn; unfold inch, metric, mm_per_inch.
  - f_equal. apply qc_eq_iff. reflexivity.
  - f_equal. apply qc_eq_iff. reflexivity.
Qed.
Lemma same_unit_true a b : same_unit a b = true <-> a = b.
Proof. destruct a, b; cbn; split; congruence. Qed.
Lemma same_unit_refl u : same_unit u u = true. Proof. destruct u; reflexivity. Qed.
Lemma conv_tool_idem u t : conv_tool u (conv_tool u t) = conv_tool u t.
Proof.
  unfold conv_tool at 1. destruct (same_unit (xs_units (t_set (conv_tool u t))) u) eqn:E; [reflexivity|].
  exfalso. unfold conv_tool in E. destruct (same_unit (xs_units (t_set t)) u) eqn:E1; [congruence|]. cbn in E. rewrite same_unit_refl in E. discriminate.
Qed.
Lemma tset_none s : forall l f, tget s l = None -> tget (tset s l f) l = None.
Proof.
  intros l f H. unfold tget in *. apply nth_error_None in H. apply nth_error_None. now rewrite tset_length.
Qed.
Lemma conv_tools_get u ls : forall s l, tget (conv_tools u s ls) l = if in_dec Nat.eq_dec l ls then option_map (conv_tool u) (tget s l) else tget s l.
Proof.
  unfold conv_tools. induction ls as [|k ls IH]; intros s l; [reflexivity|]. cbn [fold_left]. rewrite IH.
  assert (G : tget (tset s k (conv_tool u)) l = if Nat.eq_dec k l then option_map (conv_tool u) (tget s l) else tget s l).
  { destruct (Nat.eq_dec k l) as [->|N]; [|now apply tget_tset_other]. destruct (tget s l) as [t|] eqn:E; cbn; [now apply tget_tset_same|now apply tset_none]. }
  rewrite G. destruct (in_dec Nat.eq_dec l ls) as [I|I]; destruct (in_dec Nat.eq_dec l (k :: ls)) as [J|J]; destruct (Nat.eq_dec k l) as [E|E]; try reflexivity.
  - destruct (tget s l); cbn; [now rewrite conv_tool_idem|reflexivity].
  - exfalso. apply J. now right.
  - exfalso. apply J. now right.
  - exfalso. destruct J; [contradiction|contradiction].
  - exfalso. apply J. now left.
Qed.
Lemma conv_tools_length u ls : forall s, List.length (conv_tools u s ls) = List.length s.
Proof. unfold conv_tools. induction ls as [|k ls IH]; intros s; [reflexivity|]. cbn [fold_left]. now rewrite IH, tset_length. Qed.

(** The store after conversion. *)
Definition conv_store (u : unit_) (f : xfile) : list tool :=
  conv_tools u (conv_tools u (xf_store f) (stmt_tools (xf_stmts f))) (map snd (xf_tools f)).
Lemma listed_iff f l : listed f l <-> In l (stmt_tools (xf_stmts f)) \/ In l (map snd (xf_tools f)).
Proof.
  unfold listed, stmt_tools. split.
  - intros [[n I]|[u I]]; [right; apply in_map_iff; now exists (n, l)|left; apply in_flat_map; exists (ETool l, u); split; [exact I|now left]].
  - intros [I|I].
    + apply in_flat_map in I as ([s u] & I & J). cbn in J. destruct s; try destruct J as []. subst. right. now exists u. destruct H.
    + apply in_map_iff in I as ([n k] & E & I). cbn in E. subst. left. now exists n.
Qed.
Lemma conv_store_get u f l : tget (conv_store u f) l = option_map (conv_tool u) (tget (xf_store f) l) \/ (~ listed f l /\ tget (conv_store u f) l = tget (xf_store f) l).
Proof.
  unfold conv_store. rewrite !conv_tools_get.
  destruct (in_dec Nat.eq_dec l (map snd (xf_tools f))) as [I|I]; destruct (in_dec Nat.eq_dec l (stmt_tools (xf_stmts f))) as [J|J].
  - left. destruct (tget (xf_store f) l); cbn; [now rewrite conv_tool_idem|reflexivity].
  - now left.
  - now left.
  - right. split; [|reflexivity]. rewrite listed_iff. tauto.
Qed.
Lemma conv_store_listed u f l : listed f l -> tget (conv_store u f) l = option_map (conv_tool u) (tget (xf_store f) l).
Proof. intros L. destruct (conv_store_get u f l) as [H|[H _]]; [exact H|contradiction]. Qed.

Lemma conv_hits_noop u s hs : (forall h, In h hs -> exists l t, hit_tool h = Some l /\ tget s l = Some t /\ xs_units (t_set t) = u) -> conv_hits u s hs = Ok (s, hs).
Proof.
  induction hs as [|h hs IH]; intros H; [reflexivity|]. cbn [conv_hits]. destruct (H h (or_introl eq_refl)) as (l & t & E & G & X).
  unfold conv_hit. rewrite E. unfold tool_at. rewrite G. cbn [bind]. rewrite X, same_unit_refl. cbn [bind fst snd]. rewrite IH by (intros; apply H; now right). reflexivity.
Qed.
Lemma conv_tool_units u t : xs_units (t_set (conv_tool u t)) = u.
Proof. unfold conv_tool. destruct (same_unit (xs_units (t_set t)) u) eqn:E; [now apply same_unit_true|reflexivity]. Qed.
Lemma hit_tool_o h l : match h with Hit o _ | Slot o _ _ _ => o = Some l end -> hit_tool h = Some l.
Proof. destruct h; auto. Qed.

Lemma convert_form u f : consistent f -> xs_units (xf_set f) <> u ->
  convert u f = Ok (mkXfile (with_unit u (xf_set f)) (map (conv_stmt u) (xf_stmts f)) (xf_tools f) (xf_hits f) (conv_store u f)).
Proof.
  intros (C1 & C2 & C3) N. unfold convert. destruct (same_unit (xs_units (xf_set f)) u) eqn:E; [apply same_unit_true in E; contradiction|].
  fold (conv_store u f). destruct u; [reflexivity|]. rewrite conv_hits_noop; [reflexivity|].
  intros h I. destruct (C3 h I) as (l & t & Hl & G & L). exists l, (conv_tool Metric t). split; [now apply hit_tool_o|].
  split; [rewrite conv_store_listed by exact L; unfold tget; now rewrite G|apply conv_tool_units].
Qed.
Lemma factor_back u v x : u <> v -> factor v (factor u x) = x.
Proof.
  assert (E : Q2Qc (254 # 10) <> 0) by (intros X; apply (f_equal this) in X; discriminate).
  destruct u, v; intros N; try contradiction; cbn; field; exact E.
Qed.
Lemma option_back u v o : u <> v -> option_map (conv v) (option_map (conv u) o) = o.
Proof. intros N. destruct o as [x|]; [|reflexivity]. cbn. f_equal. rewrite !conv_factor. now apply factor_back. Qed.
Lemma conv_tool_back u v t : xs_units (t_set t) = v -> u <> v -> conv_tool v (conv_tool u t) = t.
Proof.
  intros E N. unfold conv_tool at 2. destruct (same_unit (xs_units (t_set t)) u) eqn:X; [apply same_unit_true in X; congruence|].
  unfold conv_tool. cbn [t_set xs_units with_unit]. destruct (same_unit u v) eqn:Y; [apply same_unit_true in Y; contradiction|].
  cbn [t_num t_retract t_feed t_maxhit t_rpm t_diam t_depth t_plated t_hits]. rewrite option_back by exact N. destruct t as [a b c d' e g h p k se]. cbn in *.
  unfold with_unit. cbn. destruct se. cbn in E. subst. reflexivity.
Qed.
Lemma nth_ext_opt {A} (a b : list A) : (forall l, nth_error a l = nth_error b l) -> a = b.
Proof.
  revert b. induction a as [|x a IH]; intros [|y b] H; [reflexivity|specialize (H 0%nat); discriminate|specialize (H 0%nat); discriminate|].
  pose proof (H 0%nat) as H0. cbn in H0. injection H0 as ->. f_equal. apply IH. intros l. exact (H (S l)).
Qed.
Lemma conv_stmt_listed u f : stmt_tools (map (conv_stmt u) (xf_stmts f)) = stmt_tools (xf_stmts f).
Proof.
  unfold stmt_tools. induction (xf_stmts f) as [|[s v] st IH]; [reflexivity|]. cbn [map flat_map]. rewrite IH. f_equal.
  unfold conv_stmt. cbn [fst]. destruct s; reflexivity.
Qed.
Lemma conv_stmt_rescaled u v s w : w = v -> v <> u -> fst (conv_stmt u (s, w)) = rescaled_stmt u s.
Proof.
  intros -> N. unfold conv_stmt. cbn [fst snd]. destruct (same_unit v u) eqn:E; [apply same_unit_true in E; contradiction|].
  assert (C : forall o, option_map (conv u) o = option_map (factor u) o) by (intros [x|]; cbn; [now rewrite conv_factor|reflexivity]).
  destruct s; cbn [rescaled_stmt]; try reflexivity; now rewrite !C.
Qed.
Lemma conv_stmt_back u v s : v <> u -> conv_stmt v (conv_stmt u (s, v)) = (s, v).
Proof.
  intros N. unfold conv_stmt. cbn [fst snd]. destruct (same_unit v u) eqn:E; [apply same_unit_true in E; contradiction|].
  assert (E' : same_unit u v = false) by (destruct (same_unit u v) eqn:X; [apply same_unit_true in X; congruence|reflexivity]).
  assert (N' : u <> v) by congruence.
  destruct s; cbn [fst snd]; rewrite ?E', ?option_back by exact N'; reflexivity.
Qed.
Lemma conv_tool_rescaled u t : xs_units (t_set t) <> u -> rescaled_tool u t (conv_tool u t).
Proof.
  intros N. unfold conv_tool. destruct (same_unit (xs_units (t_set t)) u) eqn:E; [apply same_unit_true in E; contradiction|].
  unfold rescaled_tool. cbn [t_diam t_set t_num t_retract t_feed t_maxhit t_rpm t_depth t_plated t_hits]. split; [destruct (t_diam t); cbn; [now rewrite conv_factor|reflexivity]|]. repeat split.
Qed.

Lemma C42_lemma u f : consistent f -> xs_units (xf_set f) <> u ->
  exists f', convert u f = Ok f' /\
    xf_set f' = mkXset u (xs_format (xf_set f)) (xs_zeros (xf_set f)) (xs_notation (xf_set f)) /\
    xf_tools f' = xf_tools f /\
    (forall l t, listed f l -> nth_error (xf_store f) l = Some t -> exists t', nth_error (xf_store f') l = Some t' /\ rescaled_tool u t t') /\
    map fst (xf_stmts f') = map (rescaled_stmt u) (map fst (xf_stmts f)) /\
    xf_hits f' = xf_hits f /\
    convert u f' = Ok f' /\
    convert (xs_units (xf_set f)) f' = Ok f.
Proof.
  intros C N. rewrite (convert_form u f C N). eexists. split; [reflexivity|]. cbn [xf_set xf_tools xf_store xf_stmts xf_hits].
  destruct C as (C1 & C2 & C3). split; [reflexivity|]. split; [reflexivity|]. split; [|split; [|split; [reflexivity|split]]].
  - intros l t L G. exists (conv_tool u t). split.
    + pose proof (conv_store_listed u f l L) as X. unfold tget in X. rewrite G in X. exact X.
    + apply conv_tool_rescaled. now rewrite (C2 l t L G).
  - rewrite !map_map. apply map_ext_in. intros [s w] I. cbn [fst]. apply (conv_stmt_rescaled u (xs_units (xf_set f))); [exact (C1 s w I)|exact N].
  - unfold convert. cbn [xf_set with_unit xs_units]. now rewrite same_unit_refl.
  - set (v := xs_units (xf_set f)) in *.
    set (f' := mkXfile (with_unit u (xf_set f)) (map (conv_stmt u) (xf_stmts f)) (xf_tools f) (xf_hits f) (conv_store u f)).
    assert (L' : forall l, listed f' l <-> listed f l).
    { intros l. rewrite !listed_iff. unfold f'. cbn [xf_stmts xf_tools]. now rewrite conv_stmt_listed. }
    assert (SB : conv_store v f' = xf_store f).
    { apply nth_ext_opt. intros l. change (tget (conv_store v f') l = tget (xf_store f) l).
      destruct (in_dec Nat.eq_dec l (stmt_tools (xf_stmts f) ++ map snd (xf_tools f))) as [I|I].
      - assert (L : listed f l) by (apply listed_iff; now apply in_app_or in I).
        rewrite conv_store_listed by now apply L'. unfold f'. cbn [xf_store]. rewrite conv_store_listed by exact L.
        destruct (tget (xf_store f) l) as [t|] eqn:G; cbn; [|reflexivity]. f_equal. apply conv_tool_back; [now apply (C2 l t)|congruence].
      - assert (L : ~ listed f l) by (rewrite listed_iff; intros X; apply I; now apply in_or_app).
        unfold conv_store. rewrite !conv_tools_get. unfold f'. cbn [xf_stmts xf_tools xf_store]. rewrite conv_stmt_listed.
        destruct (in_dec Nat.eq_dec l (map snd (xf_tools f))) as [X|X]; [exfalso; apply I, in_or_app; now right|].
        destruct (in_dec Nat.eq_dec l (stmt_tools (xf_stmts f))) as [Y|Y]; [exfalso; apply I, in_or_app; now left|].
        destruct (conv_store_get u f l) as [Z|[_ Z]]; [|exact Z].
        unfold conv_store. rewrite !conv_tools_get. destruct (in_dec Nat.eq_dec l (map snd (xf_tools f))); [contradiction|]. destruct (in_dec Nat.eq_dec l (stmt_tools (xf_stmts f))); [contradiction|reflexivity]. }
    assert (HB : (match v with Inch => Ok (conv_store v f', xf_hits f') | Metric => conv_hits v (conv_store v f') (xf_hits f') end) = Ok (xf_store f, xf_hits f)).
    { rewrite SB. change (xf_hits f') with (xf_hits f). assert (Q : conv_hits v (xf_store f) (xf_hits f) = Ok (xf_store f, xf_hits f)).
      { apply conv_hits_noop. intros h I. destruct (C3 h I) as (l & t & Hl & G & L). exists l, t. split; [now apply hit_tool_o|]. split; [exact G|now apply (C2 l t)]. }
      destruct v; [reflexivity|exact Q]. }
    unfold convert. change (xs_units (xf_set f')) with u. destruct (same_unit u v) eqn:E; [apply same_unit_true in E; congruence|].
    fold (conv_store v f'). rewrite HB. cbn [bind fst snd]. f_equal. unfold f'. cbn [xf_set xf_stmts xf_tools].
    rewrite map_map. rewrite (map_ext_in (fun x => conv_stmt v (conv_stmt u x)) (fun x => x)).
    + rewrite map_id. destruct f as [[a b c e] ss ts hs st]. unfold with_unit. cbn in *. subst v. reflexivity.
    + intros [s w] I. pose proof (C1 s w I) as ->. now apply conv_stmt_back.
Qed.

(** ** Offset *)
Lemma tool_at_of s h : tool_of s h <> None -> exists t, tool_of s h = Some t /\ tool_at s (hit_tool h) = Ok t.
Proof.
  unfold tool_of, tool_at, hit_tool. destruct h as [o p|o a b r]; destruct o as [l|]; try contradiction; unfold tget; destruct (nth_error s l) eqn:E; try contradiction; eauto.
Qed.
Lemma move_point_complete dx dy p : complete p -> move_point dx dy p = Ok (omove dx dy p).
Proof. destruct p as [[x|] [y|]]; intros [A B]; cbn in *; try contradiction; reflexivity. Qed.
Lemma mapM_map {A B} (f : A -> res B) (g : A -> B) l : (forall a, In a l -> f a = Ok (g a)) -> mapM f l = Ok (map g l).
Proof. induction l as [|a l IH]; intros H; [reflexivity|]. cbn. rewrite H by now left. cbn. rewrite IH by (intros; apply H; now right). reflexivity. Qed.
Lemma offset_form dx dy f : complete_hits f ->
  offset dx dy f = Ok (mkXfile (xf_set f) (map (move_stmt dx dy) (xf_stmts f)) (xf_tools f) (map (moved_hit dx dy) (xf_hits f)) (xf_store f)).
Proof.
  intros C. unfold offset. rewrite (mapM_map _ (moved_hit dx dy)); [reflexivity|]. intros h I. destruct (C h I) as [T1 T2].
  destruct (tool_at_of _ _ T1) as (t & _ & Ta). unfold move_hit. rewrite Ta. cbn [bind]. destruct h as [o p|o a b r]; [reflexivity|].
  destruct T2 as [Ca Cb]. rewrite !move_point_complete by assumption. reflexivity.
Qed.
Lemma omove_complete dx dy p : complete p -> complete (omove dx dy p).
Proof. destruct p as [[x|] [y|]]; intros [A B]; cbn in *; try contradiction; split; cbn; discriminate. Qed.
Lemma tool_of_moved s dx dy h : tool_of s (moved_hit dx dy h) = tool_of s h.
Proof. now destruct h. Qed.
Lemma complete_moved dx dy f f' : complete_hits f -> xf_store f' = xf_store f -> xf_hits f' = map (moved_hit dx dy) (xf_hits f) -> complete_hits f'.
Proof.
  intros C E1 E2 h I. rewrite E2 in I. apply in_map_iff in I as (g & <- & I). destruct (C g I) as [A B]. rewrite E1, tool_of_moved. split; [exact A|].
  destruct g as [o p|o a b r]; [exact Logic.I|]. destruct B. split; now apply omove_complete.
Qed.
Lemma oadd o a b : option_map (fun v : Qc => v + b) (option_map (fun v => v + a) o) = option_map (fun v => v + (a + b)) o.
Proof. destruct o; cbn; [f_equal; ring|reflexivity]. Qed.
Lemma oadd0 o : option_map (fun v : Qc => v + 0) o = o.
Proof. destruct o; cbn; [f_equal; ring|reflexivity]. Qed.
Lemma moved_add a b a' b' h : moved_hit a' b' (moved_hit a b h) = moved_hit (a + a') (b + b') h.
Proof. destruct h as [o [x y]|o [x y] [x' y'] r]; cbn; [unfold move; cbn; do 2 f_equal; ring|unfold omove; cbn; now rewrite !oadd]. Qed.
Lemma moved_zero h : moved_hit 0 0 h = h.
Proof. destruct h as [o [x y]|o [x y] [x' y'] r]; cbn; [unfold move; cbn; do 2 f_equal; ring|unfold omove; cbn; now rewrite !oadd0]. Qed.
Lemma move_stmt_add a b a' b' s : move_stmt a' b' (move_stmt a b s) = move_stmt (a + a') (b + b') s.
Proof. destruct s as [s u]. unfold move_stmt. cbn [fst snd]. destruct s; cbn [fst snd]; rewrite ?oadd; reflexivity. Qed.
Lemma move_stmt_zero s : move_stmt 0 0 s = s.
Proof. destruct s as [s u]. unfold move_stmt. cbn [fst snd]. destruct s; cbn [fst snd]; rewrite ?oadd0; reflexivity. Qed.
Lemma C43_lemma dx dy f : complete_hits f ->
  exists f', offset dx dy f = Ok f' /\
    xf_hits f' = map (moved_hit dx dy) (xf_hits f) /\
    xf_set f' = xf_set f /\ xf_tools f' = xf_tools f /\ xf_store f' = xf_store f /\
    (forall dx2 dy2, offset dx2 dy2 f' = offset (dx + dx2) (dy + dy2) f) /\
    offset (- dx) (- dy) f' = Ok f.
Proof.
  intros C. rewrite offset_form by exact C. eexists. split; [reflexivity|].
  match goal with |- xf_hits ?f' = _ /\ _ => assert (C' : complete_hits f') by (apply (complete_moved dx dy f); [exact C|reflexivity|reflexivity]) end.
  do 4 (split; [reflexivity|]). split.
  - intros dx2 dy2. rewrite !offset_form by assumption. cbn [xf_set xf_stmts xf_tools xf_hits xf_store]. do 2 f_equal; rewrite map_map; apply map_ext; intros; [apply move_stmt_add|apply moved_add].
  - rewrite offset_form by exact C'. cbn [xf_set xf_stmts xf_tools xf_hits xf_store]. rewrite !map_map.
    rewrite (map_ext _ (fun x => x)), map_id. rewrite (map_ext _ (fun x => x)), map_id. now destruct f.
    + intros h. rewrite moved_add. replace (dx + - dx) with (0 : Qc) by ring. replace (dy + - dy) with (0 : Qc) by ring. apply moved_zero.
    + intros s. rewrite move_stmt_add. replace (dx + - dx) with (0 : Qc) by ring. replace (dy + - dy) with (0 : Qc) by ring. apply move_stmt_zero.
Qed.

(** ** Path length *)
Lemma dget_put {A} n k (a : A) d : dget k (dput n a d) = if (n =? k)%Z then Some a else dget k d.
Proof. destruct (Z.eqb_spec n k) as [->|N]; [apply dget_dput_same|now apply dget_dput_other]. Qed.
Definition walk {D} (zero : D) add dist (l : option D) (q : option point) (ps : list point) : option D :=
  match ps with [] => l | _ => Some (polyline add dist (match l with None => zero | Some l => l end) (match q with None => (0, 0) | Some q => q end) ps) end.
Lemma path_loop_walk {D} (zero : D) add dist s n hs : forall ls ps,
  (forall h, In h hs -> tool_of s h <> None /\ match h with Hit _ _ => True | _ => False end) ->
  exists r, path_loop D zero add dist s hs ls ps = Ok r /\ dget n r = walk zero add dist (dget n ls) (dget n ps) (stops s n hs).
Proof.
  induction hs as [|h hs IH]; intros ls ps H.
  { exists ls. split; [reflexivity|]. reflexivity. }
  destruct (H h (or_introl eq_refl)) as [T1 T2]. destruct (tool_at_of _ _ T1) as (t & T3 & T4). destruct h as [o p|o a b r]; [|contradiction].
  cbn [path_loop]. rewrite T4. cbn [bind].
  match goal with |- exists r, path_loop _ _ _ _ _ _ ?a ?b = _ /\ _ => destruct (IH a b) as (r & E & G) end; [intros; apply H; now right|].
  exists r. split; [exact E|]. rewrite G, !dget_put. unfold stops. cbn [flat_map]. rewrite T3. fold (stops s n hs).
  destruct (Z.eqb_spec (t_num t) n) as [E1|E1]; [|reflexivity]. rewrite E1. cbn [app walk polyline].
  destruct (stops s n hs) as [|q l]; reflexivity.
Qed.
Lemma C44_lemma {D} (zero : D) add dist f n :
  (forall h, In h (xf_hits f) -> tool_of (xf_store f) h <> None /\ match h with Hit _ _ => True | _ => False end) ->
  path_length D zero add dist f n =
  Ok (match stops (xf_store f) n (xf_hits f) with [] => None | ps => Some (polyline add dist zero (0, 0) ps) end).
Proof.
  intros H. unfold path_length, path_lengths. destruct (path_loop_walk zero add dist (xf_store f) n (xf_hits f) [] [] H) as (r & E & G).
  rewrite E. cbn [bind]. rewrite G. cbn [dget walk]. destruct (stops (xf_store f) n (xf_hits f)); reflexivity.
Qed.

(** ** Tool update *)
Lemma over_replaced a b : over a b = replaced a b. Proof. reflexivity. Qed.
Lemma C45_lemma n u f l t :
  (forall h, In h (xf_hits f) -> tool_of (xf_store f) h <> None) ->
  dget n (xf_tools f) = Some l -> nth_error (xf_store f) l = Some t -> t_num t = n ->
  exists f', update_tool n u f = Ok f' /\
    nth_error (xf_store f') l = Some (mkTool n (replaced (u_retract u) (t_retract t)) (replaced (u_feed u) (t_feed t)) (replaced (u_maxhit u) (t_maxhit t))
      (replaced (u_rpm u) (t_rpm t)) (replaced (u_diam u) (t_diam t)) (replaced (u_depth u) (t_depth t)) (t_plated t) (t_hits t) (t_set t)) /\
    (forall k, k <> l -> nth_error (xf_store f') k = nth_error (xf_store f) k) /\
    xf_set f' = xf_set f /\ xf_stmts f' = xf_stmts f /\ xf_tools f' = xf_tools f /\
    Forall2 (fun h h' =>
      match h, h' with
      | Hit o p, Hit o' p' => p' = p /\ (if Z.eqb (match tool_of (xf_store f) h with Some t => t_num t | None => 0 end) n then o' = Some l else o' = o)
      | Slot o a b r, Slot o' a' b' r' => a' = a /\ b' = b /\ r' = r /\ (if Z.eqb (match tool_of (xf_store f) h with Some t => t_num t | None => 0 end) n then o' = Some l else o' = o)
      | _, _ => False
      end) (xf_hits f) (xf_hits f').
Proof.
  intros H G S N. unfold update_tool. rewrite G. set (s := tset (xf_store f) l (apply_update u)).
  assert (SL : tget s l = Some (apply_update u t)) by (apply tget_tset_same; exact S).
  unfold tool_at at 1. rewrite SL. cbn [bind]. change (t_num (apply_update u t)) with (t_num t). rewrite N.
  set (num := fun h => match tool_of (xf_store f) h with Some t => t_num t | None => 0%Z end).
  assert (HN : forall h, In h (xf_hits f) -> exists t', tool_at s (hit_tool h) = Ok t' /\ t_num t' = num h).
  { intros h I. destruct (tool_at_of _ _ (H h I)) as (t0 & A & B). unfold num. rewrite A. unfold tool_at in *. destruct (hit_tool h) as [k|] eqn:Ek; [|discriminate].
    destruct (Nat.eq_dec l k) as [->|X].
    - rewrite SL. exists (apply_update u t). split; [reflexivity|]. unfold tget in B. rewrite S in B. apply ok_inj in B. now subst.
    - unfold s. rewrite tget_tset_other by exact X. eexists. split; [exact B|reflexivity]. }
  rewrite (mapM_map _ (fun h => if (num h =? n)%Z then set_hit_tool l h else h)).
  2:{ intros h I. destruct (HN h I) as (t' & A & B). rewrite A. cbn [bind]. now rewrite B. }
  cbn [bind]. eexists. split; [reflexivity|]. cbn [xf_store xf_set xf_stmts xf_tools xf_hits].
  split; [unfold tget in SL; rewrite SL; unfold apply_update; now rewrite N|].
  split; [intros k X; apply tget_tset_other; congruence|]. do 3 (split; [reflexivity|]).
  clear. induction (xf_hits f) as [|h hs IH]; [constructor|]. cbn [map]. constructor; [|exact IH]. fold (num h). destruct h as [o p|o a b r]; destruct (Z.eqb _ n); cbn; auto.
Qed.

(** ** Bounding box *)
Ltac qcnra :=
  repeat match goal with H : ?A -> ?B |- _ => clear H end;
  try match goal with |- @eq Qc _ _ => apply qc_eq_iff end;
  qc_hyps; qc_terms; unfold Qminus, Qdiv in *;
  change (this 0%Qc) with 0%Q in *; change (this 1%Qc) with 1%Q in *; nra.
Lemma qc_sq_le a b : 0 <= b -> a * a <= b * b -> - b <= a /\ a <= b.
Proof.
  intros Hb H. split.
  - destruct (Qclt_le_dec a (- b)) as [L|L]; [exfalso; qcnra|exact L].
  - destruct (Qclt_le_dec b a) as [L|L]; [exfalso; qcnra|exact L].
Qed.
Lemma half_eq d : half d = d * (1 / Q2Qc (2 # 1)).
Proof. unfold half. change (zq 2) with (Q2Qc (2 # 1)). field. intros X. apply (f_equal this) in X. discriminate. Qed.
Lemma half_pos d : 0 <= d -> 0 <= half d.
Proof. intros H. rewrite half_eq. assert (E : 1 / Q2Qc (2 # 1) = Q2Qc (1 # 2)) by (apply qc_eq_iff; reflexivity). rewrite E. change (this (Q2Qc (1 # 2))) with (1 # 2) in *.
  rewrite <- (Qcmult_0_l (Q2Qc (1 # 2))). apply Qcmult_le_compat_r; [exact H|]. unfold Qcle. cbn. unfold Qle. cbn. lia. Qed.
Lemma within_bounds d c q : 0 <= d -> within_radius d c q ->
  fst c - half d <= fst q /\ fst q <= fst c + half d /\ snd c - half d <= snd q /\ snd q <= snd c + half d.
Proof.
  intros Hd W. unfold within_radius in W. rewrite <- half_eq in W. pose proof (half_pos d Hd) as P.
  set (a := fst q - fst c) in *. set (b := snd q - snd c) in *.
  assert (A : - half d <= a /\ a <= half d) by (apply qc_sq_le; [exact P|]; clear -W; qcnra).
  assert (B : - half d <= b /\ b <= half d) by (apply qc_sq_le; [exact P|]; clear -W; qcnra).
  subst a b. destruct A, B. repeat split; qclra.
Qed.
Lemma within_sides d c : within_radius d c (fst c - half d, snd c) /\ within_radius d c (fst c + half d, snd c) /\
  within_radius d c (fst c, snd c - half d) /\ within_radius d c (fst c, snd c + half d).
Proof.
  unfold within_radius. rewrite <- half_eq. cbn [fst snd].
  assert (R : forall a b : Qc, a = b -> a <= b) by (intros a b ->; apply Qcle_refl).
  repeat split; apply R; ring.
Qed.
Lemma segment_between a x k : 0 <= k -> k <= 1 -> qcmin a x <= a + k * (x - a) /\ a + k * (x - a) <= qcmax a x.
Proof. intros. unfold qcmin, qcmax. destruct (qcle_spec a x) as [H1|H1]; [split; qcnra|]. apply Qcnot_le_lt in H1. split; qcnra. Qed.
Lemma segment_end a x : (exists k, 0 <= k /\ k <= 1 /\ a + k * (x - a) = qcmin a x) /\ (exists k, 0 <= k /\ k <= 1 /\ a + k * (x - a) = qcmax a x).
Proof.
  assert (Z0 : 0 <= 0) by apply Qcle_refl. assert (Z1 : 0 <= 1) by (unfold Qcle; cbn; unfold Qle; cbn; lia). assert (Z2 : 1 <= 1) by apply Qcle_refl.
  unfold qcmin, qcmax. destruct (qcle_spec a x) as [H1|H1]; split; [exists 0|exists 1|exists 1|exists 0]; (split; [assumption|split; [assumption|ring]]).
Qed.
Lemma hit_box_ok s h t d : tool_of s h = Some t -> t_diam t = Some d -> 0 <= d ->
  match h with Hit _ _ => True | Slot _ a b _ => complete a /\ complete b end ->
  exists b, hit_box s h = Ok b /\ (forall q, removes s h q -> inside b q) /\ touched (removes s h) b.
Proof.
  intros Ht Hd Pd C. assert (TA : tool_at s (hit_tool h) = Ok t).
  { destruct (tool_at_of s h) as (t' & A & B); [congruence|]. rewrite Ht in A. injection A as <-. exact B. }
  unfold hit_box. rewrite TA. cbn [bind]. rewrite Hd. destruct h as [o p|o a b r].
  - eexists. split; [reflexivity|]. split.
    + intros q (t' & d' & A & B & W). rewrite Ht in A. injection A as <-. rewrite Hd in B. injection B as <-. exact (within_bounds d p q Pd W).
    + destruct (within_sides d p) as (W1 & W2 & W3 & W4). repeat split; eexists; (split; [exists t, d; split; [exact Ht|split; [exact Hd|]]|]).
      * exact W1.
      * reflexivity.
      * exact W2.
      * reflexivity.
      * exact W3.
      * reflexivity.
      * exact W4.
      * reflexivity.
  - destruct a as [[a|] [b'|]], b as [[x|] [y|]]; destruct C as [[C1 C2] [C3 C4]]; cbn in *; try contradiction. rename b' into b.
    eexists. split; [reflexivity|]. split.
    + intros q (t' & d' & A & B & k & K1 & K2 & W). cbn in A. rewrite Ht in A. injection A as <-. rewrite Hd in B. injection B as <-.
      destruct (within_bounds d _ q Pd W) as (W1 & W2 & W3 & W4). cbn [fst snd] in *.
      destruct (segment_between a x k K1 K2). destruct (segment_between b y k K1 K2). unfold inside. cbn [fst snd].
      set (u := a + k * (x - a)) in *. set (v := b + k * (y - b)) in *. repeat split; qclra.
    + destruct (segment_end a x) as [(k1 & A1 & B1 & E1) (k2 & A2 & B2 & E2)]. destruct (segment_end b y) as [(k3 & A3 & B3 & E3) (k4 & A4 & B4 & E4)].
      assert (R : forall k q, 0 <= k -> k <= 1 -> within_radius d (a + k * (x - a), b + k * (y - b)) q -> removes s (Slot o (Some a, Some b) (Some x, Some y) r) q).
      { intros k q K1 K2 W. exists t, d. split; [exact Ht|]. split; [exact Hd|]. exists k. auto. }
      repeat split; eexists.
      * split; [apply (R k1); [assumption|assumption|exact (proj1 (within_sides d (a + k1 * (x - a), b + k1 * (y - b))))]|]. cbn [fst snd]. now rewrite E1.
      * split; [apply (R k2); [assumption|assumption|exact (proj1 (proj2 (within_sides d (a + k2 * (x - a), b + k2 * (y - b)))))]|]. cbn [fst snd]. now rewrite E2.
      * split; [apply (R k3); [assumption|assumption|exact (proj1 (proj2 (proj2 (within_sides d (a + k3 * (x - a), b + k3 * (y - b))))))]|]. cbn [fst snd]. now rewrite E3.
      * split; [apply (R k4); [assumption|assumption|exact (proj2 (proj2 (proj2 (within_sides d (a + k4 * (x - a), b + k4 * (y - b))))))]|]. cbn [fst snd]. now rewrite E4.
Qed.
Definition grows (a b : (Qc * Qc) * (Qc * Qc)) : Prop :=
  fst (fst b) <= fst (fst a) /\ snd (fst a) <= snd (fst b) /\ fst (snd b) <= fst (snd a) /\ snd (snd a) <= snd (snd b).
Definition touched_or (P : point -> Prop) (a b : (Qc * Qc) * (Qc * Qc)) : Prop :=
  (fst (fst b) = fst (fst a) \/ exists q, P q /\ fst q = fst (fst b)) /\ (snd (fst b) = snd (fst a) \/ exists q, P q /\ fst q = snd (fst b)) /\
  (fst (snd b) = fst (snd a) \/ exists q, P q /\ snd q = fst (snd b)) /\ (snd (snd b) = snd (snd a) \/ exists q, P q /\ snd q = snd (snd b)).
Lemma join_grows a b : grows a (join_box a b) /\ grows b (join_box a b).
Proof.
  destruct a as [[ax aX] [ay aY]], b as [[bx bX] [by_ bY]]. unfold grows. cbn.
  repeat split; try apply qcmin_l; try apply qcmin_r; try apply qcmax_l; apply qcmax_r.
Qed.
Lemma join_sides a b : let c := join_box a b in
  (fst (fst c) = fst (fst a) \/ fst (fst c) = fst (fst b)) /\ (snd (fst c) = snd (fst a) \/ snd (fst c) = snd (fst b)) /\
  (fst (snd c) = fst (snd a) \/ fst (snd c) = fst (snd b)) /\ (snd (snd c) = snd (snd a) \/ snd (snd c) = snd (snd b)).
Proof.
  destruct a as [[ax aX] [ay aY]], b as [[bx bX] [by_ bY]]. cbn.
  destruct (qcmin_case bx ax), (qcmax_case bX aX), (qcmin_case by_ ay), (qcmax_case bY aY); auto 10.
Qed.
Lemma inside_grows a b q : grows a b -> inside a q -> inside b q.
Proof. intros (G1 & G2 & G3 & G4) (I1 & I2 & I3 & I4). repeat split; eapply Qcle_trans; eassumption. Qed.
Lemma grows_trans a b c : grows a b -> grows b c -> grows a c.
Proof. intros (G1 & G2 & G3 & G4) (I1 & I2 & I3 & I4). repeat split; eapply Qcle_trans; eassumption. Qed.
Lemma boxes_ok s hs : forall acc,
  (forall h, In h hs -> exists b, hit_box s h = Ok b /\ (forall q, removes s h q -> inside b q) /\ touched (removes s h) b) ->
  exists b, boxes s hs acc = Ok b /\ grows acc b /\ (forall h q, In h hs -> removes s h q -> inside b q) /\
    touched_or (fun q => exists h, In h hs /\ removes s h q) acc b.
Proof.
  induction hs as [|h hs IH]; intros acc H.
  - exists acc. split; [reflexivity|]. split; [repeat split; apply Qcle_refl|]. split; [intros h q []|]. repeat split; now left.
  - destruct (H h (or_introl eq_refl)) as (b0 & E0 & I0 & T0). cbn [boxes]. rewrite E0. cbn [bind].
    destruct (IH (join_box acc b0)) as (b & E & G & I & TT); [intros; apply H; now right|].
    destruct (join_grows acc b0) as [Ga Gb]. exists b. split; [exact E|]. split; [exact (grows_trans _ _ _ Ga G)|]. split.
    + intros h' q [<-|Ih] R; [apply (inside_grows b0); [exact (grows_trans _ _ _ Gb G)|now apply I0]|now apply (I h')].
    + destruct (join_sides acc b0) as (S1 & S2 & S3 & S4). destruct TT as (T1 & T2 & T3 & T4). destruct T0 as (U1 & U2 & U3 & U4).
      assert (K : forall (pr : point -> Qc) v va v0 vj, (v = vj \/ exists q, (exists h', In h' hs /\ removes s h' q) /\ pr q = v) -> (vj = va \/ vj = v0) ->
                 (exists q, removes s h q /\ pr q = v0) -> v = va \/ exists q, (exists h', In h' (h :: hs) /\ removes s h' q) /\ pr q = v).
      { intros pr v va v0 vj [->|(q & (h' & Ih & R) & Eq)] J (q0 & R0 & Eq0).
        - destruct J as [-> | ->]; [now left|right]. exists q0. split; [exists h; split; [now left|exact R0]|exact Eq0].
        - right. exists q. split; [exists h'; split; [now right|exact R]|exact Eq]. }
      repeat split; eapply K; eassumption.
Qed.
Lemma C65_lemma f : drillable f -> xf_hits f <> [] ->
  exists b, bounding_box f = Ok b /\
    (forall h q, In h (xf_hits f) -> removes (xf_store f) h q -> inside b q) /\
    touched (fun q => exists h, In h (xf_hits f) /\ removes (xf_store f) h q) b.
Proof.
  intros (C & Dm & L) NE. 
  assert (H : forall h, In h (xf_hits f) -> exists b, hit_box (xf_store f) h = Ok b /\ (forall q, removes (xf_store f) h q -> inside b q) /\ touched (removes (xf_store f) h) b).
  { intros h I. destruct (C h I) as [T1 T2]. destruct (tool_of (xf_store f) h) as [t|] eqn:Et; [|contradiction].
    destruct (Dm h t I Et) as (d & Ed & Pd). exact (hit_box_ok _ _ t d Et Ed Pd T2). }
  destruct (boxes_ok (xf_store f) (xf_hits f) ((sentinel, - sentinel), (sentinel, - sentinel)) H) as (b & E & _ & I & TT).
  exists b. split; [exact E|]. split; [exact I|].
  destruct (xf_hits f) as [|h0 hs] eqn:EH; [contradiction|]. destruct (H h0 (or_introl eq_refl)) as (b0 & _ & I0 & (q0 & R0 & _) & _).
  pose proof (L h0 q0 (or_introl eq_refl) R0) as (L1 & L2 & L3 & L4). pose proof (I h0 q0 (or_introl eq_refl) R0) as (J1 & J2 & J3 & J4).
  change (zq (10 ^ 11)) with sentinel in *. destruct TT as (T1 & T2 & T3 & T4). cbn [fst snd] in *.
  assert (P0 : exists h, In h (h0 :: hs) /\ removes (xf_store f) h q0) by (exists h0; split; [now left|exact R0]).
  repeat split.
  - destruct T1 as [X|X]; [|exact X]. exists q0. split; [exact P0|]. rewrite X in *. now apply Qcle_antisym.
  - destruct T2 as [X|X]; [|exact X]. exists q0. split; [exact P0|]. rewrite X in *. now apply Qcle_antisym.
  - destruct T3 as [X|X]; [|exact X]. exists q0. split; [exact P0|]. rewrite X in *. now apply Qcle_antisym.
  - destruct T4 as [X|X]; [|exact X]. exists q0. split; [exact P0|]. rewrite X in *. now apply Qcle_antisym.
Qed.
