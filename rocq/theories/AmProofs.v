(** Lemmas about the primitives of aperture macros (AmModel.v). *)
From Coq Require Import Lqa.
From Verif Require Import PyBase QcLib NumModel NumSpec NumProofs FmtModel FmtProofs FloatCodec ReprModel ReprProofs
  MacroModel MacroSpec MacroProofs GerberText GerberTextProofs GerberEval IpcProofs WriterFile AmModel AmSpec.
Open Scope Qc_scope.
Open Scope list_scope.

(** ** The text of a number *)
Lemma counts_trunc q n : counts q n <-> py_trunc q = n.
Proof.
  assert (Z1 : forall m, (this (zq m) == inject_Z m)%Q) by (intros; apply Qred_correct).
  assert (Zp : (this (zq n + 1) == inject_Z (n + 1))%Q) by (unfold Qcplus; cbn [this Q2Qc]; rewrite Qred_correct, Z1, inject_Z_plus; reflexivity).
  assert (Zm : (this (zq n - 1) == inject_Z (n - 1))%Q) by (unfold Qcminus, Qcplus; cbn [this Q2Qc]; rewrite Qred_correct, Z1; change (inject_Z n + - (1) == inject_Z (n + -1))%Q; rewrite inject_Z_plus; reflexivity).
  unfold counts, py_trunc. destruct (Qclt_le_dec q 0) as [S|S]; unfold Qclt, Qcle in S |- *; rewrite ?Zp, ?Zm, ?Z1; destruct q as [[a d] c]; cbn [this Qnum Qden] in *; unfold Qle, Qlt in *; cbn [Qnum Qden inject_Z Q2Qc this Qred] in *; rewrite ?Z.mul_1_r in *; cbn in S.
  - replace a with (- (- a))%Z by lia. rewrite Z.quot_opp_l by lia. rewrite Z.quot_div_nonneg by lia. pose proof (Z.div_mod (- a) (Zpos d) ltac:(lia)) as D. pose proof (Z.mod_pos_bound (- a) (Zpos d) ltac:(lia)) as B. split.
    + intros [L U]. assert (E : (- n)%Z = (- a / Zpos d)%Z) by (apply Z.div_unique with (r := (- a + n * Zpos d)%Z); [left; lia|lia]). lia.
    + intros <-. nia.
  - rewrite Z.quot_div_nonneg by lia. pose proof (Z.div_mod a (Zpos d) ltac:(lia)) as D. pose proof (Z.mod_pos_bound a (Zpos d) ltac:(lia)) as B. split.
    + intros [L U]. symmetry. apply Z.div_unique with (r := (a - n * Zpos d)%Z); [left; lia|lia].
    + intros <-. nia.
Qed.
Lemma show_point_gchars n k : forallb gchar (show_point n k) = true.
Proof.
  unfold show_point. rewrite forallb_app, show_fixed_gchars. destruct (rstrip_p _ _); reflexivity.
Qed.
Lemma fmt_r_pos_gchars P v : forallb gchar (fmt_r_pos P v) = true.
Proof.
  unfold fmt_r_pos. cbv zeta. match goal with |- context [let (_, _) := ?x in _] => destruct x as [n e] end.
  destruct ((-4 <=? e) && (e <? 16))%Z; [destruct (e <? Z.of_nat P)%Z; apply show_point_gchars|].
  now rewrite forallb_app, show_fixed_gchars, show_exp_gchars.
Qed.
Lemma py_repr_gchars v : forallb gchar (py_repr v) = true.
Proof.
  unfold py_repr, fmt_r. cbv zeta. destruct (qceq _ _); [reflexivity|].
  destruct (qclt _ _); [cbn [forallb]|]; rewrite fmt_r_pos_gchars; reflexivity.
Qed.
Lemma py_repr_last v : exists r c, py_repr v = r ++ [c] /\ is_digit c = true.
Proof.
  unfold py_repr. cbv zeta. set (w := rnd53 v). destruct (digits_needed_reads 16 1 w ltac:(lia) (rnd53_idem v)) as [_ HP].
  set (P := digits_needed 16 1 w) in *. unfold fmt_r. destruct (qceq_spec w 0) as [|Hz]; [exists (T "0."), "0"%char; now split|].
  destruct (qclt_spec w 0) as [H|H].
  - destruct (fmt_r_pos_form P (- w) HP ltac:(qclra)) as (_ & _ & r & c & -> & D). exists ("-"%char :: r), c. now split.
  - assert (Hv : 0 < w) by (apply Qcnot_le_lt; intros C; apply Qcle_lt_or_eq in C as [C|C]; auto).
    now destruct (fmt_r_pos_form P w HP Hv) as (_ & _ & X).
Qed.

(** The number is read back as the same double. *)
Lemma float_repr v : py_float_fl rnd53 (py_repr v) = Ok (rnd53 v).
Proof.
  assert (E : py_repr v = py_repr (rnd53 v)) by (unfold py_repr; now rewrite rnd53_idem).
  rewrite E. destruct (repr_reads (rnd53 v) (rnd53_idem v)) as (u & U & R). unfold py_float_fl. rewrite U. cbn [bind]. now rewrite R.
Qed.

(** ** Splitting the text of a primitive *)
Lemma in_join c sep l : In c (join sep l) -> In c sep \/ exists x, In x l /\ In c x.
Proof.
  induction l as [|x l IH]; [intros []|]. cbn [join]. destruct l as [|y l]; [intros H; right; exists x; split; [now left|exact H]|].
  rewrite !in_app_iff. intros [H|[H|H]]; [right; exists x; split; [now left|exact H]|now left|].
  destruct (IH H) as [H'|(z & Z1 & Z2)]; [now left|right; exists z; split; [now right|exact Z2]].
Qed.
Lemma split_join l : l <> [] -> Forall (fun x => ~ In ","%char x) l -> split_on ","%char (join (T ",") l) = l.
Proof.
  induction l as [|x l IH]; [congruence|]. intros _ H. inversion H as [|? ? H1 H2]; subst. cbn [join]. destruct l as [|y l].
  - apply split_on_none. apply Forall_forall. intros c Hc ->. contradiction.
  - change (T ",") with [","%char]. cbn [app]. rewrite split_on_app by auto. f_equal. apply IH; [discriminate|auto].
Qed.

Lemma gchars_no_comma s : forallb gchar s = true -> ~ In ","%char s.
Proof. intros H I. rewrite forallb_forall in H. specialize (H _ I). discriminate. Qed.
Lemma show_int_pos c : (0 <= c)%Z -> show_int c = show_nat c.
Proof. intros H. unfold show_int. destruct (Z.ltb_spec c 0); [lia|reflexivity]. Qed.

(** The pieces of the text of a primitive with numeric modifiers. *)
Lemma modifiers_of_yield c vs : (0 <= c)%Z -> vs <> [] ->
  modifiers_of (yield_text (c, map MNum vs)) = show_nat c :: map py_repr vs.
Proof.
  intros Hc Hv. unfold modifiers_of, yield_text. cbn [fst snd]. rewrite show_int_pos by auto. rewrite map_map. cbn [mval_text].
  set (ts := map _ vs). change (map (fun x => py_repr x) vs) with ts.
  assert (S : strip_p (fun c => ceq c " "%char || ceq c "*"%char) (show_nat c ++ T "," ++ join (T ",") ts) = show_nat c ++ T "," ++ join (T ",") ts).
  { unfold strip_p. rewrite lstrip_p_keep.
    - apply rstrip_p_keep. intros r x E.
      assert (L : exists r' x', join (T ",") ts = r' ++ [x'] /\ is_digit x' = true).
      { unfold ts. clear -Hv. induction vs as [|v vs IH]; [congruence|]. cbn [map join]. destruct vs as [|w vs].
        - apply py_repr_last.
        - cbn [map] in IH |- *. destruct (IH ltac:(discriminate)) as (r & x & -> & D). exists (py_repr v ++ T "," ++ r), x. split; [|exact D]. now rewrite <- !app_assoc. }
      destruct L as (r' & x' & L & D). rewrite L in E. rewrite !app_assoc in E. apply app_inj_tail in E as [_ ->].
      destruct (ceq_spec x " "%char) as [->|]; [discriminate D|]. destruct (ceq_spec x "*"%char) as [->|]; [discriminate D|]. reflexivity.
    - intros x r E. pose proof (show_nat_digits c) as D. destruct (show_nat c) as [|y t] eqn:F; [now apply show_nat_nonempty in F|].
      cbn [app] in E. injection E as -> _. cbn in D. apply andb_prop in D as [D _].
      destruct (ceq_spec x " "%char) as [->|]; [discriminate D|]. destruct (ceq_spec x "*"%char) as [->|]; [discriminate D|]. reflexivity. }
  rewrite S. change (T ",") with [","%char] at 1. cbn [app]. rewrite split_on_app.
  - f_equal. apply split_join; [unfold ts; destruct vs; [congruence|discriminate]|].
    unfold ts. apply Forall_forall. intros x Hx. apply in_map_iff in Hx as (v & <- & _). apply gchars_no_comma, py_repr_gchars.
  - intros H. pose proof (show_nat_digits c) as D. unfold all_digits in D. rewrite forallb_forall in D. specialize (D _ H). discriminate.
Qed.

Lemma num_yield c vs i : num (show_nat c :: map py_repr vs) (S i) =
  match nth_error vs i with Some v => Ok (rnd53 v) | None => Err IndexError end.
Proof.
  unfold num, index. cbn [nth_error]. rewrite nth_error_map. destruct (nth_error vs i); cbn [option_map bind]; [apply float_repr|reflexivity].
Qed.
Lemma code_yield c vs : (0 <= c)%Z -> code_of (show_nat c :: map py_repr vs) = Ok c.
Proof. intros H. unfold code_of, index. cbn [nth_error bind]. rewrite <- show_int_pos by auto. now apply py_int_show. Qed.

Lemma from_gerber_known c vs : vs <> [] ->
  match c with
  | 1%Z => from_gerber (yield_text (1%Z, map MNum vs)) = circle_from (show_nat 1 :: map py_repr vs)
  | 2%Z => from_gerber (yield_text (2%Z, map MNum vs)) = vector_from (show_nat 2 :: map py_repr vs)
  | 20%Z => from_gerber (yield_text (20%Z, map MNum vs)) = vector_from (show_nat 20 :: map py_repr vs)
  | 4%Z => from_gerber (yield_text (4%Z, map MNum vs)) = outline_from (show_nat 4 :: map py_repr vs)
  | 5%Z => from_gerber (yield_text (5%Z, map MNum vs)) = polygon_from (show_nat 5 :: map py_repr vs)
  | 6%Z => from_gerber (yield_text (6%Z, map MNum vs)) = moire_from (show_nat 6 :: map py_repr vs)
  | 7%Z => from_gerber (yield_text (7%Z, map MNum vs)) = thermal_from (show_nat 7 :: map py_repr vs)
  | 21%Z => from_gerber (yield_text (21%Z, map MNum vs)) = center_from (show_nat 21 :: map py_repr vs)
  | 22%Z => from_gerber (yield_text (22%Z, map MNum vs)) = lower_from (show_nat 22 :: map py_repr vs)
  | _ => True
  end.
Proof.
  intros H.
  assert (M : forall k, (0 <= k)%Z -> modifiers_of (yield_text (k, map MNum vs)) = show_nat k :: map py_repr vs) by (intros; now apply modifiers_of_yield).
  assert (K : forall k (t : text), show_int k = t -> yield_text (k, map MNum vs) = t ++ T "," ++ join (T ",") (map mval_text (map MNum vs))) by (intros k t <-; reflexivity).
  destruct c as [|p|p]; [exact I| |exact I].
  do 5 (try destruct p as [p|p|]; try exact I).
  all: match goal with |- from_gerber (yield_text (?k, _)) = _ => rewrite <- (M k) by lia; rewrite (K k _ eq_refl); reflexivity end.
Qed.

(** ** Reading a primitive *)
Lemma flag_qceq e : flag e (qceq e 1).
Proof. unfold flag. destruct (qceq_spec e 1); split; congruence. Qed.
Lemma flag_det e a b : flag e a -> flag e b -> a = b.
Proof. unfold flag. destruct a, b; intuition congruence. Qed.

Ltac reading := cbn [fst snd]; unfold exposure, pair_at; rewrite ?code_yield by lia; rewrite ?num_yield; cbn [nth_error bind check].

Lemma points_read l : forall n vs tail, n = Z.of_nat (List.length l) -> map rnd53 vs = coords l ->
  points_from n (map py_repr vs ++ tail) = Ok l.
Proof.
  induction l as [|[x y] l IH]; intros n vs tail N E.
  - subst n. destruct vs; [|discriminate E]. cbn [map app]. destruct tail as [|a [|b t]]; reflexivity.
  - destruct vs as [|a [|b vs]]; try discriminate E. cbn [map coords] in E. injection E as <- <- E.
    change (n = Z.of_nat (S (List.length l))) in N.
    cbn [map app points_from]. destruct (Z.leb_spec n 0) as [C|_]; [exfalso; lia|].
    rewrite !float_repr. cbn [bind]. rewrite (IH (n - 1)%Z vs tail ltac:(lia) E). reflexivity.
Qed.
Lemma point_eqb_true a b : point_eqb a b = true <-> a = b.
Proof.
  unfold point_eqb. destruct a as [a1 a2], b as [b1 b2]. cbn [fst snd]. destruct (qceq_spec a1 b1), (qceq_spec a2 b2); cbn; split; congruence.
Qed.

Lemma means_reads c vs p : means c (map rnd53 vs) p -> from_gerber (yield_text (c, map MNum vs)) = Ok p.
Proof.
  intros M. assert (V : vs <> []) by (intros ->; inversion M).
  remember (map rnd53 vs) as ws eqn:E.
  destruct M as [e on d x y F|c e on w x1 y1 x2 y2 r C F|e on q s l r F L N S|e on q n x y d r F N B|x y d th g q n ct cl r N|x y o i g r|e on w h x y r F|e on w h x y r F].
  - do 4 (destruct vs as [|? vs]; [discriminate E|]). destruct vs; [|discriminate E]. injection E as -> -> -> ->.
    rewrite (from_gerber_known 1) by discriminate. unfold circle_from. reading. now rewrite (flag_det _ _ _ (flag_qceq _) F).
  - do 7 (destruct vs as [|? vs]; [discriminate E|]). destruct vs; [|discriminate E]. injection E as -> -> -> -> -> -> ->.
    destruct C as [-> | ->].
    + rewrite (from_gerber_known 2) by discriminate. unfold vector_from. reading. now rewrite (flag_det _ _ _ (flag_qceq _) F).
    + rewrite (from_gerber_known 20) by discriminate. unfold vector_from. reading. now rewrite (flag_det _ _ _ (flag_qceq _) F).
  - destruct s as [sx sy]. cbn [coords app] in E. do 4 (destruct vs as [|? vs]; [discriminate E|]). cbn [map] in E. injection E as -> -> -> -> E.
    symmetry in E. apply map_eq_app in E as (vs1 & vs2 & -> & E1 & E2). destruct vs2 as [|r0 [|? ?]]; try discriminate E2. cbn [map] in E2. injection E2 as <-.
    rewrite (from_gerber_known 4) by discriminate. unfold outline_from. reading.
    apply counts_trunc in N. rewrite !map_cons, map_app. cbn [skipn]. rewrite (points_read l _ vs1 _ N E1). cbn [bind].
    assert (LN : last_num (show_nat 4 :: py_repr q0 :: py_repr q1 :: py_repr q2 :: py_repr q3 :: map py_repr vs1 ++ map py_repr [r0]) = Ok (rnd53 r0)).
    { unfold last_num. cbn [map]. rewrite !app_comm_cons, last_last. apply float_repr. }
    rewrite LN. cbn [bind]. destruct l as [|p0 l]; [congruence|]. rewrite (proj2 (point_eqb_true _ _) S). cbn [check bind].
    now rewrite (flag_det _ _ _ (flag_qceq _) F).
  - do 6 (destruct vs as [|? vs]; [discriminate E|]). destruct vs; [|discriminate E]. injection E as -> -> -> -> -> ->.
    rewrite (from_gerber_known 5) by discriminate. unfold polygon_from. reading. apply counts_trunc in N. rewrite N.
    destruct (Z.ltb_spec n 3); [lia|]. destruct (Z.ltb_spec 12 n); [lia|]. cbn. now rewrite (flag_det _ _ _ (flag_qceq _) F).
  - do 9 (destruct vs as [|? vs]; [discriminate E|]). destruct vs; [|discriminate E]. injection E as -> -> -> -> -> -> -> -> ->.
    rewrite (from_gerber_known 6) by discriminate. unfold moire_from. reading. apply counts_trunc in N. now rewrite N.
  - do 6 (destruct vs as [|? vs]; [discriminate E|]). destruct vs; [|discriminate E]. injection E as -> -> -> -> -> ->.
    rewrite (from_gerber_known 7) by discriminate. unfold thermal_from. reading. reflexivity.
  - do 6 (destruct vs as [|? vs]; [discriminate E|]). destruct vs; [|discriminate E]. injection E as -> -> -> -> -> ->.
    rewrite (from_gerber_known 21) by discriminate. unfold center_from. reading. now rewrite (flag_det _ _ _ (flag_qceq _) F).
  - do 6 (destruct vs as [|? vs]; [discriminate E|]). destruct vs; [|discriminate E]. injection E as -> -> -> -> -> ->.
    rewrite (from_gerber_known 22) by discriminate. unfold lower_from. reading. now rewrite (flag_det _ _ _ (flag_qceq _) F).
Qed.

Ltac take vs L := destruct vs as [|? vs]; [cbn in L; lia|].
Ltac back l := let M := fresh "M" in intros M; apply (means_reads _ l) in M;
  match type of M with from_gerber (yield_text (?k, map MNum ?ws)) = _ => rewrite (from_gerber_known k ws) in M by discriminate end; rewrite <- M.

Lemma reads_means c n vs p : known_code c -> c <> 4%Z -> (List.length (kinds c n) <= List.length vs)%nat ->
  from_gerber (yield_text (c, map MNum vs)) = Ok p <-> means c (map rnd53 (firstn (List.length (kinds c n)) vs)) p.
Proof.
  intros K N4 L.
  assert (Hflag : forall e, flag (rnd53 e) (qceq (rnd53 e) 1)) by (intros; apply flag_qceq).
  unfold known_code in K. cbn [In] in K.
  destruct K as [<-|[<-|[<-|[<-|[<-|[<-|[<-|[<-|[<-|[]]]]]]]]]]; try congruence; cbn [kinds List.length] in L |- *.
  - do 4 (take vs L). clear L. rewrite (from_gerber_known 1) by discriminate. cbn [firstn]. split; [|back [q; q0; q1; q2]]; unfold circle_from; reading; [|reflexivity].
    intros E. injection E as <-. cbn [map]. now constructor.
  - do 7 (take vs L). clear L. rewrite (from_gerber_known 2) by discriminate. cbn [firstn]. split; [|back [q; q0; q1; q2; q3; q4; q5]]; unfold vector_from; reading; [|reflexivity].
    intros E. injection E as <-. cbn [map]. constructor; auto.
  - do 7 (take vs L). clear L. rewrite (from_gerber_known 20) by discriminate. cbn [firstn]. split; [|back [q; q0; q1; q2; q3; q4; q5]]; unfold vector_from; reading; [|reflexivity].
    intros E. injection E as <-. cbn [map]. constructor; auto.
  - do 6 (take vs L). clear L. rewrite (from_gerber_known 5) by discriminate. cbn [firstn]. split; [|back [q; q0; q1; q2; q3; q4]]; unfold polygon_from; reading; [|reflexivity].
    change (5 =? 5)%Z with true. cbn [check bind]. set (v := py_trunc (rnd53 q0)).
    destruct (Z.ltb_spec v 3); [discriminate|]. destruct (Z.ltb_spec 12 v); [discriminate|]. cbn [orb negb check bind].
    intros E. injection E as <-. cbn [map]. apply M_polygon; [auto|now apply counts_trunc|lia].
  - do 9 (take vs L). clear L. rewrite (from_gerber_known 6) by discriminate. cbn [firstn]. split; [|back [q; q0; q1; q2; q3; q4; q5; q6; q7]]; unfold moire_from; reading; [|reflexivity].
    intros E. injection E as <-. cbn [map]. constructor. now apply counts_trunc.
  - do 6 (take vs L). clear L. rewrite (from_gerber_known 7) by discriminate. cbn [firstn]. split; [|back [q; q0; q1; q2; q3; q4]]; unfold thermal_from; reading; [|reflexivity].
    intros E. injection E as <-. cbn [map]. now constructor.
  - do 6 (take vs L). clear L. rewrite (from_gerber_known 21) by discriminate. cbn [firstn]. split; [|back [q; q0; q1; q2; q3; q4]]; unfold center_from; reading; [|reflexivity].
    intros E. injection E as <-. cbn [map]. now constructor.
  - do 6 (take vs L). clear L. rewrite (from_gerber_known 22) by discriminate. cbn [firstn]. split; [|back [q; q0; q1; q2; q3; q4]]; unfold lower_from; reading; [|reflexivity].
    intros E. injection E as <-. cbn [map]. now constructor.
Qed.

(** Too few modifiers are an error. *)
Lemma few_modifiers c n vs : known_code c -> c <> 4%Z -> vs <> [] -> (List.length vs < List.length (kinds c n))%nat ->
  from_gerber (yield_text (c, map MNum vs)) = Err IndexError.
Proof.
  intros K N4 V L. unfold known_code in K. cbn [In] in K.
  destruct K as [<-|[<-|[<-|[<-|[<-|[<-|[<-|[<-|[<-|[]]]]]]]]]]; try congruence; cbn [kinds List.length] in L.
  1: rewrite (from_gerber_known 1) by auto. 2: rewrite (from_gerber_known 2) by auto. 3: rewrite (from_gerber_known 20) by auto.
  4: rewrite (from_gerber_known 5) by auto. 5: rewrite (from_gerber_known 6) by auto. 6: rewrite (from_gerber_known 7) by auto.
  7: rewrite (from_gerber_known 21) by auto. 8: rewrite (from_gerber_known 22) by auto.
  all: unfold circle_from, vector_from, polygon_from, moire_from, thermal_from, center_from, lower_from.
  all: repeat (destruct vs as [|? vs]; [first [congruence|reading; reflexivity]|]).
  all: cbn in L; exfalso; lia.
Qed.

(** An outline whose modifiers have the right number. *)
Lemma coords_length l : List.length (coords l) = (2 * List.length l)%nat.
Proof. induction l as [|[x y] l IH]; cbn [coords List.length]; [reflexivity|rewrite IH; lia]. Qed.
Lemma points_from_coords : forall m n vs l, (List.length vs <= m)%nat -> points_from n (map py_repr vs) = Ok l -> (0 <= n)%Z ->
  Z.of_nat (List.length l) = n /\ exists t, map rnd53 vs = coords l ++ t.
Proof.
  induction m as [|m IH]; intros n vs l Lm E Hn.
  - destruct vs; [|cbn in Lm; lia]. cbn [map points_from] in E. destruct (Z.leb_spec n 0); [|discriminate]. injection E as <-. cbn [map]. split; [cbn; lia|]. now exists [].
  - destruct vs as [|a [|b vs]].
    + cbn [map points_from] in E. destruct (Z.leb_spec n 0); [|discriminate]. injection E as <-. cbn [map]. split; [cbn; lia|]. now exists [].
    + cbn [map points_from] in E. destruct (Z.leb_spec n 0); [|rewrite float_repr in E; discriminate E]. injection E as <-. cbn [map]. split; [cbn; lia|]. now exists [rnd53 a].
    + cbn [map points_from] in E. destruct (Z.leb_spec n 0).
      { injection E as <-. cbn [map]. split; [cbn; lia|]. now exists (map rnd53 (a :: b :: vs)). }
      rewrite !float_repr in E. cbn [bind] in E. destruct (points_from (n - 1) (map py_repr vs)) as [l'|] eqn:F; [|discriminate E]. cbn [bind] in E. injection E as <-.
      destruct (IH (n - 1)%Z vs l') as (A & t & B); [cbn in Lm; lia|exact F|lia|].
      split; [cbn [List.length]; lia|]. exists t. cbn [map coords app]. now rewrite B.
Qed.

Lemma outline_means vs p q : nth_error vs 1 = Some q -> (0 <= py_trunc (rnd53 q))%Z ->
  List.length vs = List.length (kinds 4 (Z.to_nat (py_trunc (rnd53 q)))) ->
  from_gerber (yield_text (4%Z, map MNum vs)) = Ok p <-> means 4 (map rnd53 vs) p.
Proof.
  intros Q Q0 L. split; [|apply means_reads]. cbn [kinds] in L. cbn [List.length] in L. rewrite app_length, repeat_length in L. cbn [List.length] in L.
  set (n := py_trunc (rnd53 q)) in *.
  do 4 (destruct vs as [|? vs]; [cbn in L; lia|]). cbn in Q. injection Q as ->. cbn [List.length] in L.
  rewrite (from_gerber_known 4) by discriminate. unfold outline_from. reading. fold n. rewrite !map_cons. cbn [skipn].
  destruct (points_from n (map py_repr vs)) as [l|] eqn:P; [|discriminate]. cbn [bind].
  destruct (points_from_coords (List.length vs) n vs l (le_n _) P Q0) as (N & t & E).
  assert (LT : List.length t = 1%nat).
  { apply (f_equal (@List.length Qc)) in E. rewrite map_length, app_length, coords_length in E. clearbody n. clear -E L N Q0. assert (Z.to_nat n = List.length l) by (rewrite <- N; apply Nat2Z.id). rewrite H in L. lia. }
  destruct t as [|r [|? ?]]; try discriminate LT. apply map_eq_app in E as (v1 & v2 & -> & E1 & E2). destruct v2 as [|r0 [|? ?]]; try discriminate E2. injection E2 as <-.
  assert (LN : last_num (show_nat 4 :: py_repr q0 :: py_repr q :: py_repr q2 :: py_repr q3 :: map py_repr (v1 ++ [r0])) = Ok (rnd53 r0)).
  { unfold last_num. rewrite map_app. cbn [map]. rewrite !app_comm_cons, last_last. apply float_repr. }
  rewrite LN. cbn [bind]. change (4 =? 4)%Z with true. cbn [check bind]. destruct l as [|p0 l]; [discriminate|].
  destruct (point_eqb (List.last (p0 :: l) (0, 0)) (rnd53 q2, rnd53 q3)) eqn:S; [|discriminate]. apply point_eqb_true in S. cbn [check bind].
  intros X. injection X as <-. rewrite map_app, E1. cbn [map app].
  change (rnd53 q0 :: rnd53 q :: rnd53 q2 :: rnd53 q3 :: coords (p0 :: l) ++ [rnd53 r0]) with (rnd53 q0 :: rnd53 q :: coords ((rnd53 q2, rnd53 q3) :: p0 :: l) ++ [rnd53 r0]).
  constructor; [apply flag_qceq|discriminate|apply counts_trunc; symmetry; exact N|exact S].
Qed.

Lemma outline_counts vs p q n : nth_error vs 1 = Some q -> counts (rnd53 q) (Z.of_nat n) -> List.length vs = List.length (kinds 4 n) ->
  from_gerber (yield_text (4%Z, map MNum vs)) = Ok p <-> means 4 (map rnd53 vs) p.
Proof. intros Q C L. apply counts_trunc in C. apply (outline_means vs p q Q); rewrite C; [lia|now rewrite Nat2Z.id]. Qed.
(** A primitive of an unknown code is never taken for a known one. *)
Ltac unbind H := repeat match type of H with
  | bind ?r _ = Ok _ => let E := fresh "E" in destruct r eqn:E; [cbn [bind] in H|discriminate H]
  end.
Lemma unknown_code c vs p : (1 <= c)%Z -> ~ known_code c -> vs <> [] ->
  from_gerber (yield_text (c, map MNum vs)) = Ok p -> p = AUnsupported (yield_text (c, map MNum vs)).
Proof.
  intros C K V H. unfold from_gerber in H. pose proof (modifiers_of_yield c vs ltac:(lia) V) as M.
  pose proof (code_yield c vs ltac:(lia)) as CY.
  assert (HD : exists x r, yield_text (c, map MNum vs) = x :: r /\ is_digit x = true /\ x <> "0"%char).
  { destruct (show_nat_head c C) as (x & r & E & D & N). exists x. unfold yield_text. cbn [fst]. rewrite show_int_pos by lia. rewrite E. cbn [app]. eauto. }
  destruct HD as (x & r & E & D & N). rewrite E in *. rewrite M in H. set (m := show_nat c :: map py_repr vs) in *.
  destruct (ceq_spec x "0"%char) as [|_]; [contradiction|].
  assert (Kn : forall k, In k [1; 2; 20; 4; 5; 6; 7; 21; 22]%Z -> (c =? k)%Z = false).
  { intros k Hk. apply Z.eqb_neq. intros ->. now apply K. }
  cbv zeta in H. clearbody m.
  repeat match type of H with
  | (if ?b then _ else _) = _ => destruct b; [exfalso|]
  end; [..|now injection H as <-].
  all: unfold circle_from, vector_from, outline_from, polygon_from, moire_from, thermal_from, center_from, lower_from in H; rewrite CY in H; cbn [bind] in H; unbind H.
  all: match goal with
       | E : check (?c0 =? ?k)%Z = Ok _, Kn : forall k, _ -> (?c0 =? k)%Z = false |- _ => rewrite (Kn k) in E by (cbn [In]; lia); discriminate E
       | E : check (_ || _) = Ok _, Kn : forall k, _ -> (_ =? k)%Z = false |- _ => rewrite (Kn 2%Z), (Kn 20%Z) in E by (cbn [In]; lia); discriminate E
       end.
Qed.
