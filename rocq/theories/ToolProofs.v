From Verif Require Import PyBase QcLib NumModel NumSpec NumProofs FmtProofs Regex GerberText DetectModel SettingsModel ExcellonModel ExcellonSpec ExcellonProofs MacroProofs ExcellonRun
  ToolModel ToolSpec.
From Verif Require IpcProofs FloatCodec.
From Coq Require Import QArith Qcanon.
Open Scope list_scope.
Open Scope Qc_scope.

(** ** Texts *)
Lemma blanks_space s : blanks s -> forallb is_space s = true.
Proof. intros B. apply forallb_forall. intros c I. unfold blanks in B. rewrite Forall_forall in B. destruct (B c I) as [->| ->]; reflexivity. Qed.
Lemma blanks_nl s : blanks s -> ~ In nl s.
Proof. intros B I. unfold blanks in B. rewrite Forall_forall in B. destruct (B nl I) as [E|E]; discriminate E. Qed.
Lemma strip_front a t : forallb is_space a = true -> strip (a ++ t) = strip t.
Proof. intros H. unfold strip, strip_p. now rewrite IpcProofs.lstrip_p_app. Qed.
Lemma lstrip_mid p t b : forallb p t = true \/ lstrip_p p (t ++ b) = lstrip_p p t ++ b.
Proof. induction t as [|c t IH]; [now left|]. cbn [forallb app lstrip_p]. destruct (p c); [exact IH|now right]. Qed.
Lemma strip_back t b : forallb is_space b = true -> strip (t ++ b) = strip t.
Proof.
  intros H. unfold strip, strip_p. destruct (lstrip_mid is_space t b) as [E| ->].
  - rewrite (IpcProofs.lstrip_p_app is_space t b E). now rewrite !IpcProofs.lstrip_all.
  - now apply IpcProofs.rstrip_p_app.
Qed.
Lemma strip_around a t b : blanks a -> blanks b -> strip (a ++ t ++ b) = strip t.
Proof. intros A B. rewrite strip_front by now apply blanks_space. apply strip_back. now apply blanks_space. Qed.
(** The lines of a text. *)
Lemma lines_stripped eol lines : line_end eol -> Forall no_newline lines -> lines_of (file_text eol lines) = map strip lines ++ [[]].
Proof.
  intros E F. unfold lines_of, file_text. induction F as [|l lines N F IH]; [reflexivity|]. cbn [map List.concat app].
  assert (X : exists a, l ++ eol = a ++ [nl] /\ strip a = strip l /\ ~ In nl a).
  { destruct E as [->| ->].
    - exists l. auto.
    - exists (l ++ [cr]). split; [now rewrite <- app_assoc|]. split; [now apply strip_back|]. intros I. apply in_app_or in I as [I|[I|[]]]; [auto|discriminate]. }
  destruct X as (a & -> & Sa & Na). rewrite <- app_assoc. cbn [app]. rewrite (split_on_app nl) by exact Na. cbn [map]. rewrite Sa, IH. reflexivity.
Qed.

(** ** Numbers *)
Lemma decimal_chars t v : decimal t v -> Forall (fun c => is_digit c = true \/ c = "."%char) t /\ t <> [].
Proof.
  intros [a D N|a b Da Db N].
  - split; [|exact N]. apply Forall_forall. intros c I. left. apply digit_string_iff in D. eapply NumProofs.all_digits_in; eassumption.
  - apply digit_string_iff in Da, Db. split.
    + apply Forall_forall. intros c I. apply in_app_or in I as [I|I]; [left; exact (NumProofs.all_digits_in _ _ Da I)|].
      destruct I as [I|I]; [right; now symmetry|left; exact (NumProofs.all_digits_in _ _ Db I)].
    + destruct a; discriminate.
Qed.
Lemma digit_size c : is_digit c = true -> size_char c = true.
Proof.
  intros H. assert (D : digit_string [c]) by (apply digit_string_iff; cbn; now rewrite H). inversion D as [|? ? I _]; subst.
  unfold size_char, one_of. apply char_in_true. repeat (destruct I as [<-|I]; [cbn; tauto|]). destruct I.
Qed.
Lemma decimal_size t v : decimal t v -> forallb size_char t = true /\ t <> [] /\ ~ In "/"%char t.
Proof.
  intros D. destruct (decimal_chars _ _ D) as [F N]. rewrite Forall_forall in F. split; [|split; [exact N|]].
  - apply forallb_forall. intros c I. destruct (F c I) as [H| ->]; [now apply digit_size|reflexivity].
  - intros I. destruct (F _ I) as [H|H]; discriminate H.
Qed.
Lemma py_float_says t v : decimal t v -> py_float t = Ok v.
Proof.
  intros [a D N|a b Da Db N].
  - rewrite grid_dec, int_of_dval by exact D. apply digit_string_iff in D. unfold py_float.
    rewrite strip_id by (intros c I; apply digit_not_space; eapply NumProofs.all_digits_in; eassumption). destruct a as [|c a]; [contradiction|].
    assert (Dc : is_digit c = true) by (cbn in D; now apply andb_prop in D). rewrite !(digit_neq c) by (auto; reflexivity).
    unfold py_float_unsigned. rewrite <- (app_nil_r (c :: a)) at 1. rewrite span_digits_all by auto. reflexivity.
  - rewrite grid_dec, int_of_dval by (unfold digit_string; apply Forall_app; auto). apply py_float_decimal; [now apply digit_string_iff..|exact N].
Qed.
Lemma py_int_says t n : number t n -> py_int t = Ok n.
Proof. intros (D & N & <-). now apply py_int_digits. Qed.

(** ** Regular expressions *)
(** All ways of a repetition, and of one or two digits. *)
Lemma plus_ways p a r u cs t : (match r with c :: _ => p c = false | [] => True end) -> In (u, cs, t) (rm (Plus_ p) (a ++ r)) ->
  exists a1 a2, a = a1 ++ a2 /\ t = a2 ++ r /\ a1 <> [].
Proof.
  intros Hr I. unfold Plus_ in I. cbn [rm] in I. apply in_flat_map in I as ([[u1 c1] t1] & I1 & I2).
  apply in_map_iff in I2 as ([[u2 c2] t2] & E & I2). injection E as <- <- <-.
  destruct a as [|c a].
  { cbn [app] in I1. destruct r as [|c r]; [destruct I1|]. rewrite Hr in I1. destruct I1. }
  cbn [app] in I1. destruct (p c); [|destruct I1]. destruct I1 as [I1|[]]. injection I1 as <- <- <-.
  apply star_match_used in I2 as (E & _ & F).
  assert (X : exists x, a = u2 ++ x /\ t2 = x ++ r).
  { revert u2 E F. induction a as [|d a IH]; intros u2 E F.
    - destruct u2 as [|d u2]; [exists []; auto|]. cbn [app] in E. subst r. cbn [forallb] in F. rewrite Hr in F. discriminate.
    - destruct u2 as [|x u2]; [exists (d :: a); auto|]. cbn [app] in E. injection E as <- E. cbn [forallb] in F. apply andb_prop in F as [_ F].
      destruct (IH u2 E F) as (y & -> & ->). exists y. auto. }
  destruct X as (x & -> & ->). exists (c :: u2), x. repeat split. discriminate.
Qed.
Lemma grp_ways n r s u cs t : In (u, cs, t) (rm (Grp n r) s) -> exists cs', In (u, cs', t) (rm r s).
Proof. cbn [rm]. intros I. apply in_map_iff in I as ([[u' c'] t'] & E & I). injection E as <- <- <-. eauto. Qed.
Lemma digit12_first ds r : digit_string ds -> ds <> [] -> (List.length ds <= 2)%nat -> (match r with c :: _ => is_digit c = false | [] => True end) ->
  first digit12 (ds ++ r) (ds, [], r).
Proof.
  intros D N Le Hr. apply digit_string_iff in D. unfold digit12. destruct ds as [|a [|b [|c ds]]]; [contradiction| | |cbn in Le; lia]; cbn in D.
  - rewrite andb_true_r in D. apply (first_seq _ _ _ [a] [] r [] [] r); [now apply first_cls|]. apply first_opt_skip. destruct r as [|c r]; cbn; [reflexivity|now rewrite Hr].
  - apply andb_prop in D as [Da Db]. rewrite andb_true_r in Db. apply (first_seq _ _ _ [a] [] (b :: r) [b] [] r); [now apply first_cls|]. apply first_opt. now apply first_cls.
Qed.
Lemma digit12_ways ds r u cs t : digit_string ds -> ds <> [] -> (match r with c :: _ => is_digit c = false | [] => True end) ->
  In (u, cs, t) (rm digit12 (ds ++ r)) -> exists a1 a2, ds = a1 ++ a2 /\ t = a2 ++ r /\ a1 <> [].
Proof.
  intros D N Hr I. apply digit_string_iff in D. destruct ds as [|a ds]; [contradiction|]. cbn in D. apply andb_prop in D as [Da D].
  unfold digit12 in I. cbn [rm app] in I. rewrite Da in I. cbn [flat_map] in I. rewrite app_nil_r in I.
  apply in_map_iff in I as ([[u1 c1] t1] & E & I). injection E as <- <- <-.
  assert (X : t1 = ds ++ r \/ exists b ds', ds = b :: ds' /\ t1 = ds' ++ r).
  { apply in_app_or in I as [I|[I|[]]]; [|injection I as <- <- <-; now left]. destruct ds as [|b ds]; cbn [app] in I.
    - destruct r as [|b r]; [destruct I|]. rewrite Hr in I. destruct I.
    - cbn in D. apply andb_prop in D as [Db _]. rewrite Db in I. destruct I as [I|[]]. injection I as <- <- <-. right. eauto. }
  destruct X as [->|(b & ds' & -> & ->)]; [exists [a], ds|exists [a; b], ds']; repeat split; discriminate.
Qed.
(** Failure of a sequence whose first part can only stop early or at [t]. *)
Lemma fail_seq_at a b s t : (forall u cs t', In (u, cs, t') (rm a s) -> t' = t \/ rm b t' = []) -> rm b t = [] -> rm (Seq a b) s = [].
Proof. intros H E. apply fail_seq. intros u cs t' I. destruct (H _ _ _ I) as [->|X]; auto. Qed.
Lemma fail_after t b s : rm b s = [] -> rm (Seq (Lit t) b) (t ++ s) = [].
Proof. intros H. apply fail_seq. intros u cs t' I. cbn [rm] in I. rewrite strip_prefix_app in I. destruct I as [I|[]]. injection I as _ _ <-. exact H. Qed.
Lemma seq_lit_head c t b x s : c <> x -> rm (Seq (Lit (c :: t)) b) (x :: s) = [].
Proof. intros H. apply fail_seq_l. now apply fail_lit. Qed.

(** ** Rows of tables and comments *)
Lemma gap_first g r : gap g -> (match r with c :: _ => is_space c = false | [] => True end) -> first (Plus_ is_space) (g ++ r) (g, [], r).
Proof. intros [B N] H. apply first_plus; [now apply blanks_space|exact N|exact H]. Qed.
Lemma size_first n s v r : decimal s v -> (match r with c :: _ => size_char c = false | [] => True end) ->
  first (G n (Plus_ size_char)) (s ++ r) (s, [(T n, s)], r).
Proof. intros D H. destruct (decimal_size _ _ D) as (F & N & _). apply first_grp. now apply first_plus. Qed.
Lemma gap_head g r (P : ascii -> bool) : gap g -> P " "%char = false -> P "009"%char = false -> match g ++ r with c :: _ => P c = false | [] => True end.
Proof. intros [B N] H1 H2. destruct g as [|c g]; [contradiction|]. inversion B as [|? ? [->| ->] _]; subst; cbn; auto. Qed.
Lemma decimal_head s v r : decimal s v -> match s ++ r with c :: _ => is_space c = false | [] => True end.
Proof.
  intros D. destruct (decimal_chars _ _ D) as [F N]. destruct s as [|c s]; [contradiction|]. inversion F as [|? ? [H| ->] _]; subst; cbn; [now apply digit_not_space|reflexivity].
Qed.
Definition groups (cs : caps) (s ds x y pl : text) : Prop :=
  group "size" cs = Some s /\ group "toolid" cs = Some ds /\ group "xtol" cs = Some x /\ group "ytol" cs = Some y /\ group "plated" cs = Some pl.
Lemma two_digits ds n r : number ds n -> List.length ds = 2%nat -> first (Seq (Cls is_digit) (Cls is_digit)) (ds ++ r) (ds, [], r).
Proof.
  intros (D & _ & _) Ld. apply digit_string_iff in D. destruct ds as [|a [|b [|c ds]]]; try discriminate. cbn in D.
  apply andb_prop in D as [Da Db]. rewrite andb_true_r in Db. apply (first_seq _ _ _ [a] [] (b :: r) [b] [] r); apply first_cls; assumption.
Qed.
Lemma row_match s size g1 p plated g2 ds n g3 x xt g4 y yt :
    decimal s size -> gap g1 -> (p, plated) = ("P"%char, PYes) \/ (p, plated) = ("N"%char, PNo) -> gap g2 ->
    number ds n -> List.length ds = 2%nat -> gap g3 -> decimal x xt -> gap g4 -> decimal y yt ->
  exists cs, re_match allegro_tool (s ++ g1 ++ [p] ++ g2 ++ T "T" ++ ds ++ g3 ++ x ++ g4 ++ y) = Some (cs, []) /\ groups cs s ds x y [p].
Proof.
  intros Ds G1 P G2 Nd Ld G3 Dx G4 Dy. assert (P' : p = "P"%char \/ p = "N"%char) by (destruct P as [P|P]; injection P; auto).
  eexists. split.
  - eapply first_match. unfold allegro_tool. cbn [seqs].
    eapply first_seq; [eapply size_first; [exact Ds|now apply gap_head]|].
    eapply first_seq; [eapply gap_first; [exact G1|destruct P' as [->| ->]; reflexivity]|].
    eapply first_seq.
    { apply first_grp. destruct P' as [->| ->]; [apply first_alt_l|apply first_alt_r; [reflexivity|]]; apply first_lit. }
    eapply first_seq; [eapply gap_first; [exact G2|reflexivity]|].
    eapply first_seq; [apply first_lit|].
    eapply first_seq.
    { apply first_grp. exact (two_digits ds n (g3 ++ x ++ g4 ++ y) Nd Ld). }
    eapply first_seq; [eapply gap_first; [exact G3|eapply decimal_head; exact Dx]|].
    eapply first_seq; [eapply size_first; [exact Dx|now apply gap_head]|].
    eapply first_seq; [eapply gap_first; [exact G4|]|].
    { generalize (decimal_head _ _ [] Dy). now rewrite app_nil_r. }
    rewrite <- (app_nil_r y) at 1. eapply size_first; [exact Dy|exact Logic.I].
  - repeat split.
Qed.

Definition core (id unit : string) : re :=
  seqs [G id digit12; L ". = "; G "size" (Plus_ size_char); L " Tolerance = +"; G "xtol" (Plus_ size_char);
        L "/-"; G "ytol" (Plus_ size_char); L " "; G "plated" (Alt (L "PLATED") (Alt (L "NON_PLATED") (L "OPTIONAL")));
        L unit; Plus_ is_digit].
Definition core_text (ds s x y : text) (p : plating) (rest : text) : text :=
  ds ++ T ". = " ++ s ++ T " Tolerance = +" ++ x ++ T "/-" ++ y ++ T " " ++ plating_text p ++ rest.
Definition unit_string (u : munit) : string := match u with Mils => " MILS Quantity = " | Mm => " MM Quantity = " end.
Lemma plated_first p r : first (G "plated" (Alt (L "PLATED") (Alt (L "NON_PLATED") (L "OPTIONAL")))) (plating_text p ++ r) (plating_text p, [(T "plated", plating_text p)], r).
Proof.
  apply first_grp. destruct p.
  - apply first_alt_l. apply first_lit.
  - apply first_alt_r; [reflexivity|]. apply first_alt_l. apply first_lit.
  - apply first_alt_r; [reflexivity|]. apply first_alt_r; [reflexivity|]. apply first_lit.
Qed.
Lemma plated_ways p r u cs t : In (u, cs, t) (rm (G "plated" (Alt (L "PLATED") (Alt (L "NON_PLATED") (L "OPTIONAL")))) (plating_text p ++ r)) -> t = r.
Proof. intros H. destruct p; cbn in H; destruct H as [H|[]]; injection H as _ _ <-; reflexivity. Qed.
Lemma tol_firstb n x v r (b : re) : decimal x v -> (forall t, rm (Seq (L "/-") b) ("-"%char :: t) = []) ->
  firstb (G n (Plus_ size_char)) (x ++ T "/-" ++ r) (x, [(T n, x)], T "/-" ++ r) (fun t => rm (Seq (L "/-") b) t = []).
Proof.
  intros D H. destruct (decimal_size _ _ D) as (F & N & _). apply firstb_grp. destruct x as [|c x]; [contradiction|]. cbn [forallb] in F. apply andb_prop in F as [Fc F].
  apply (firstb_seq (Cls size_char) (Star size_char) _ [c] [] (x ++ T "/-" ++ r) x [] (T "/-" ++ r)); [now apply first_cls|].
  change (T "/-" ++ r) with (["/"%char] ++ "-"%char :: r). apply firstb_star; [rewrite forallb_app, F; reflexivity|reflexivity|].
  intros x1 x2 N1 E. destruct x1 as [|k x1]; [contradiction|]. injection E as <- E. destruct x1; [|discriminate]. cbn [app] in E. subst x2. apply H.
Qed.
Lemma digits_head ds n r : number ds n -> match ds ++ r with c :: _ => is_digit c = true | [] => False end.
Proof. intros (D & N & _). apply digit_string_iff in D. destruct ds as [|c ds]; [contradiction|]. cbn in *. now apply andb_prop in D. Qed.
Lemma first_used r s u cs t : first r s (u, cs, t) -> s = u ++ t.
Proof. intros [l E]. eapply rm_used. rewrite E. now left. Qed.
Lemma core_match id u ds n s size x xt y yt p q k : number ds n -> (List.length ds <= 2)%nat -> decimal s size -> decimal x xt -> decimal y yt -> number q k ->
  first (core id (unit_string u)) (core_text ds s x y p (T (unit_string u) ++ q))
    (core_text ds s x y p (T (unit_string u) ++ q),
     [(T "plated", plating_text p); (T "ytol", y); (T "xtol", x); (T "size", s); (T id, ds)], []).
Proof.
  intros Nd Ld Ds Dx Dy Nq. unfold core, core_text. cbn [seqs].
  match goal with |- first ?r ?s (?u, ?cs, ?t) => assert (H : exists u', first r s (u', cs, t)) end.
  2:{ destruct H as [u' H]. assert (U := first_used _ _ _ _ _ H). rewrite app_nil_r in U. rewrite <- U in H. exact H. }
  destruct Nd as (D & N & _). eexists.
  eapply first_seq with (cs' := [(T "plated", plating_text p); (T "ytol", y); (T "xtol", x); (T "size", s)]) (cs := [(T id, ds)]);
    [apply first_grp; apply digit12_first; auto; reflexivity|].
  eapply first_seq with (cs := []) (cs' := [(T "plated", plating_text p); (T "ytol", y); (T "xtol", x); (T "size", s)]); [apply first_lit|].
  eapply first_seq with (cs := [(T "size", s)]) (cs' := [(T "plated", plating_text p); (T "ytol", y); (T "xtol", x)]); [eapply size_first; [exact Ds|reflexivity]|].
  eapply first_seq with (cs := []) (cs' := [(T "plated", plating_text p); (T "ytol", y); (T "xtol", x)]); [apply first_lit|].
  eapply first_seq_back with (cs := [(T "xtol", x)]) (cs' := [(T "plated", plating_text p); (T "ytol", y)]); [eapply tol_firstb; [exact Dx|reflexivity]|].
  eapply first_seq with (cs := []) (cs' := [(T "plated", plating_text p); (T "ytol", y)]); [apply first_lit|].
  eapply first_seq with (cs := [(T "ytol", y)]) (cs' := [(T "plated", plating_text p)]); [eapply size_first; [exact Dy|reflexivity]|].
  eapply first_seq with (cs := []) (cs' := [(T "plated", plating_text p)]); [apply first_lit|].
  eapply first_seq with (cs := [(T "plated", plating_text p)]) (cs' := []); [apply plated_first|].
  eapply first_seq with (cs := []) (cs' := []); [apply first_lit|].
  destruct Nq as (Dq & Nq & _). rewrite <- (app_nil_r q) at 1. apply first_plus; [now apply digit_string_iff in Dq|exact Nq|exact Logic.I].
Qed.
(** With the unit of the other kind there is no match. *)
Lemma core_fail id u u' ds n s size x xt y yt p q : u <> u' -> number ds n -> decimal s size -> decimal x xt -> decimal y yt ->
  rm (core id (unit_string u')) (core_text ds s x y p (T (unit_string u) ++ q)) = [].
Proof.
  intros NE (D & N & _) Ds Dx Dy. unfold core, core_text. cbn [seqs].
  assert (SL : forall (w : text) c t b r, Forall (fun x => x <> c) w -> forall a1 a2, w = a1 ++ a2 -> a2 ++ r = r \/ rm (Seq (Lit (c :: t)) b) (a2 ++ r) = []).
  { intros w c t b r F a1 a2 E. destruct a2 as [|y0 a2]; [now left|right]. apply seq_lit_head. subst w. apply Forall_app in F as [_ F]. inversion F; subst; auto. }
  assert (DC : forall w v c, decimal w v -> is_digit c = false -> c <> "."%char -> Forall (fun x => x <> c) w).
  { intros w v c Dw H1 H2. destruct (decimal_chars _ _ Dw) as [F _]. eapply Forall_impl; [|exact F]. intros a [H|H] E; congruence. }
  eapply fail_seq_at with (t := T ". = " ++ _).
  { intros u0 cs t I. apply grp_ways in I as [cs' I]. apply digit12_ways in I as (a1 & a2 & E & -> & _); auto; [|reflexivity].
    eapply SL; [|exact E]. eapply Forall_impl; [|exact D]. intros a Ha ->. cbn in Ha. intuition discriminate. }
  apply fail_after. eapply fail_seq_at with (t := T " Tolerance = +" ++ _).
  { intros u0 cs t I. apply grp_ways in I as [cs' I]. apply plus_ways in I as (a1 & a2 & E & -> & _); [|reflexivity].
    eapply SL; [|exact E]. eapply DC; [exact Ds|reflexivity|discriminate]. }
  apply fail_after. eapply fail_seq_at with (t := T "/-" ++ _).
  { intros u0 cs t I. apply grp_ways in I as [cs' I]. change (T "/-") with (["/"%char] ++ ["-"%char]) in I. rewrite <- (app_assoc ["/"%char]) in I. rewrite app_assoc in I.
    apply plus_ways in I as (a1 & a2 & E & -> & _); [|reflexivity]. destruct a2 as [|c a2 _] using rev_ind; [right; reflexivity|].
    rewrite app_assoc in E. apply app_inj_tail in E as [E <-]. rewrite <- app_assoc. eapply SL; [|exact E]. eapply DC; [exact Dx|reflexivity|discriminate]. }
  apply fail_after. eapply fail_seq_at with (t := T " " ++ _).
  { intros u0 cs t I. apply grp_ways in I as [cs' I]. apply plus_ways in I as (a1 & a2 & E & -> & _); [|reflexivity].
    eapply SL; [|exact E]. eapply DC; [exact Dy|reflexivity|discriminate]. }
  apply fail_after. apply fail_seq. intros u0 cs t I. apply plated_ways in I as ->. apply fail_seq_l. destruct u, u'; try contradiction; reflexivity.
Qed.

(** ** Lengths *)
Definition measured (u : unit_) (e : entry) : Qc :=
  let mm := match e_unit e with Mils => e_size e / mils_per_mm | Mm => e_size e end in
  match u with Inch => mm / Q2Qc (254 # 10) | Metric => mm end.
Lemma near_factor a b c : 0 < c -> c <= Q2Qc (2 # 1000000000000) -> a - b = - (b * c) -> near a b.
Proof.
  intros P Le E. unfold near. rewrite E, FloatCodec.qabs_opp, FloatCodec.qabs_mult_pos by exact P. rewrite (Qcmult_comm (qabs b)).
  apply Qcmult_le_compat_r; [exact Le|apply qabs_nonneg].
Qed.
Lemma near_refl a : near a a.
Proof.
  unfold near. replace (a - a) with 0 by ring. change (qabs 0) with 0. replace 0 with (0 * qabs a) at 1 by ring.
  apply Qcmult_le_compat_r; [discriminate|apply qabs_nonneg].
Qed.
Lemma mils_mm : mils_per_mm <> 0.
Proof. intros H. vm_compute in H. discriminate H. Qed.
Lemma mm_inch : Q2Qc (254 # 10) <> 0.
Proof. intros H. vm_compute in H. discriminate H. Qed.
Lemma mil_mm : Q2Qc (254 # 10000) <> 0.
Proof. intros H. vm_compute in H. discriminate H. Qed.
Lemma thousand : zq 1000 <> 0.
Proof. intros H. vm_compute in H. discriminate H. Qed.
Lemma measured_near u e : near (measured u e) (diameter_in u e).
Proof.
  unfold measured, diameter_in. assert (M := mils_mm). assert (I := mm_inch). assert (C := mil_mm). assert (K := thousand). destruct (e_unit e), u.
  - apply near_factor with (c := 1 - zq 1000 / (mils_per_mm * Q2Qc (254 # 10))); [vm_compute; reflexivity|vm_compute; discriminate|].
    revert M I K. generalize mils_per_mm (Q2Qc (254 # 10)) (zq 1000) (e_size e). intros m i k s M I K. field. auto.
  - apply near_factor with (c := 1 - / (mils_per_mm * Q2Qc (254 # 10000))); [vm_compute; reflexivity|vm_compute; discriminate|].
    revert M C. generalize mils_per_mm (Q2Qc (254 # 10000)) (e_size e). intros m c s M C. field. auto.
  - apply near_refl.
  - apply near_refl.
Qed.
Lemma convert_says u size k : convert_length (Some u) size k = Ok (measured u (mkEntry Table size k PYes)).
Proof. destruct u; reflexivity. Qed.
Lemma convert_ok u v k : exists w, convert_length (Some u) v k = Ok w.
Proof. destruct u; eexists; reflexivity. Qed.

(** ** Lines of tool files *)
Definition kept (e : entry) : option plating := match e_from e with Table => None | Comment => Some (e_plating e) end.
Lemma plating_says p : plating_of (plating_text p) = Some p.
Proof. destruct p; reflexivity. Qed.
Definition nl_free (t : text) : Prop := Forall (fun c => c <> nl) t.
Lemma nl_free_iff t : nl_free t -> no_newline t.
Proof. intros F I. unfold nl_free in F. rewrite Forall_forall in F. exact (F nl I eq_refl). Qed.
Lemma nl_free_app a b : nl_free a -> nl_free b -> nl_free (a ++ b).
Proof. intros. now apply Forall_app. Qed.
Lemma decimal_nl s v : decimal s v -> nl_free s.
Proof. intros D. destruct (decimal_chars _ _ D) as [F _]. eapply Forall_impl; [|exact F]. intros a [H|H] E; subst; discriminate. Qed.
Lemma number_nl s n : number s n -> nl_free s.
Proof. intros (D & _). eapply Forall_impl; [|exact D]. intros a Ha E. subst a. cbn in Ha. intuition discriminate. Qed.
Lemma gap_nl g : gap g -> nl_free g.
Proof. intros [B _]. eapply Forall_impl; [|exact B]. intros a [->| ->]; discriminate. Qed.
Lemma lit_nl s : forallb (fun c => negb (ceq c nl)) (T s) = true -> nl_free (T s).
Proof. intros H. apply Forall_forall. intros c I E. rewrite forallb_forall in H. specialize (H c I). subst c. now rewrite ceq_refl in H. Qed.
Lemma plating_nl p : nl_free (plating_text p).
Proof. destruct p; now apply lit_nl. Qed.
Lemma unit_nl u : nl_free (munit_text u).
Proof. destruct u; now apply lit_nl. Qed.
Lemma decimal_last s v : decimal s v -> exists r c, s = r ++ [c] /\ is_space c = false.
Proof.
  intros D. destruct (decimal_chars _ _ D) as [F N]. destruct s as [|c s _] using rev_ind; [contradiction|]. exists s, c. split; [reflexivity|].
  apply Forall_app in F as [_ F]. inversion F as [|? ? [H| ->] _]; subst; [now apply digit_not_space|reflexivity].
Qed.
Lemma number_last s n : number s n -> exists r c, s = r ++ [c] /\ is_space c = false.
Proof. intros (D & N & _). apply (decimal_last s (grid (int_of s) 0)). now constructor. Qed.
Lemma strip_bounds t c d : (exists r, t = c :: r) -> (exists r, t = r ++ [d]) -> is_space c = false -> is_space d = false -> strip t = t.
Proof. intros [r E] [r' E'] Hc Hd. apply strip_ends. split; [now rewrite E|]. rewrite E', rev_app_distr. exact Hd. Qed.
Lemma decimal_begin s v : decimal s v -> exists c r, s = c :: r /\ is_space c = false.
Proof. intros D. generalize (decimal_head s v [] D). rewrite app_nil_r. destruct (decimal_chars _ _ D) as [_ N]. destruct s as [|c s]; [contradiction|]. eauto. Qed.

Lemma entry_text e t : table_row e t \/ hole_size e t -> strip t = t /\ nl_free t.
Proof.
  intros [[s size g1 p plated g2 ds n g3 x xt g4 y yt Ds G1 P G2 Nd Ld G3 Dx G4 Dy]|
          [ds n s size x xt y yt p u q k Nd Ld Ds Dx Dy Nq|ds n hs h s size x xt y yt p u q k Nd Ld Nh Lh Ds Dx Dy Nq]].
  - split.
    + destruct (decimal_begin _ _ Ds) as (c & r & -> & Hc). destruct (decimal_last _ _ Dy) as (r' & d & -> & Hd).
      apply (strip_bounds _ c d); [cbn; eauto| |exact Hc|exact Hd]. eexists. rewrite !app_assoc. reflexivity.
    + repeat apply nl_free_app; eauto using decimal_nl, number_nl, gap_nl; try (now apply lit_nl).
      destruct P as [E|E]; injection E as -> ->; repeat constructor; discriminate.
  - split.
    + destruct (number_last _ _ Nq) as (r & d & -> & Hd). apply (strip_bounds _ "H"%char d); [cbn; eauto| |reflexivity|exact Hd]. eexists. rewrite !app_assoc. reflexivity.
    + repeat apply nl_free_app; eauto using decimal_nl, number_nl, gap_nl, plating_nl, unit_nl; try (now apply lit_nl).
  - split.
    + destruct (number_last _ _ Nq) as (r & d & -> & Hd). apply (strip_bounds _ "T"%char d); [cbn; eauto| |reflexivity|exact Hd]. eexists. rewrite !app_assoc. reflexivity.
    + repeat apply nl_free_app; eauto using decimal_nl, number_nl, gap_nl, plating_nl, unit_nl; try (now apply lit_nl).
Qed.
Lemma allegro_fail c r : size_char c = false -> re_match allegro_tool (c :: r) = None.
Proof. intros H. apply fail_match. apply fail_seq_l. apply fail_grp. apply fail_seq_l. cbn [rm]. now rewrite H. Qed.
Lemma comment_fail u c r : c <> "H"%char -> re_match (hole_comment u) (c :: r) = None.
Proof. intros H. apply fail_match. apply seq_lit_head. congruence. Qed.
Lemma comment2_fail u c r : c <> "T"%char -> re_match (hole_comment2 u) (c :: r) = None.
Proof. intros H. apply fail_match. apply seq_lit_head. congruence. Qed.
Lemma match_one r u l t g v : re_match r t = Some (g, v) -> match_tool ((r, u) :: l) t = Some (g, u).
Proof. intros H. cbn [match_tool]. now rewrite H. Qed.
Lemma match_skip r u l t : re_match r t = None -> match_tool ((r, u) :: l) t = match_tool l t.
Proof. intros H. cbn [match_tool]. now rewrite H. Qed.
Lemma entry_match e t : table_row e t \/ hole_size e t ->
  exists cs s ds x y pl xt yt, match_tool matchers t = Some (cs, e_unit (snd e)) /\ groups cs s ds x y pl /\ number ds (fst e) /\ decimal s (e_size (snd e)) /\ decimal x xt /\ decimal y yt /\
    plating_of pl = kept (snd e).
Proof.
  intros [[s size g1 p plated g2 ds m g3 x xt g4 y yt Ds G1 P G2 Nd Ld G3 Dx G4 Dy]|
          [ds m s size x xt y yt p u q k Nd Ld Ds Dx Dy Nq|ds m hs h s size x xt y yt p u q k Nd Ld Nh Lh Ds Dx Dy Nq]]; cbn [fst snd e_unit e_size].
  - destruct (row_match s size g1 p plated g2 ds m g3 x xt g4 y yt) as (cs & E & Gr); auto. exists cs, s, ds, x, y, [p], xt, yt.
    split; [eapply match_one; exact E|]. repeat (split; [assumption|]). unfold kept. cbn [e_from]. destruct P as [E'|E']; injection E' as -> ->; reflexivity.
  - assert (TX : T "Holesize " ++ ds ++ T ". = " ++ s ++ T " Tolerance = +" ++ x ++ T "/-" ++ y ++ T " " ++ plating_text p ++ T " " ++ munit_text u ++ T " Quantity = " ++ q =
                 T "Holesize " ++ core_text ds s x y p (T (unit_string u) ++ q)).
    { unfold core_text. do 10 f_equal. destruct u; reflexivity. }
    rewrite TX. clear TX. unfold matchers.
    assert (M : re_match (hole_comment (unit_string u)) (T "Holesize " ++ core_text ds s x y p (T (unit_string u) ++ q)) =
      Some ([(T "plated", plating_text p); (T "ytol", y); (T "xtol", x); (T "size", s); (T "toolid", ds)] ++ [], [])).
    { eapply first_match. change (hole_comment (unit_string u)) with (Seq (L "Holesize ") (core "toolid" (unit_string u))). eapply first_seq; [apply first_lit|]. eapply core_match; eassumption. }
    eexists _, s, ds, x, y, (plating_text p), xt, yt. split; [|split; [|repeat (split; [assumption|]); unfold kept; cbn [e_from e_plating]; now destruct p]].
    + cbn [T list_ascii_of_string app] in *. rewrite match_skip by now apply allegro_fail. destruct u.
      * eapply match_one. exact M.
      * rewrite match_skip.
        2:{ apply fail_match. change (hole_comment " MILS Quantity = ") with (Seq (L "Holesize ") (core "toolid" (unit_string Mils))).
            eapply (fail_after (T "Holesize ")). eapply core_fail; try eassumption. discriminate. }
        rewrite match_skip by now apply comment2_fail. eapply match_one. exact M.
    + repeat split.
  - assert (TX : T "T" ++ ds ++ T " Holesize " ++ hs ++ T ". = " ++ s ++ T " Tolerance = +" ++ x ++ T "/-" ++ y ++ T " " ++ plating_text p ++ T " " ++ munit_text u ++ T " Quantity = " ++ q =
                 T "T" ++ ds ++ T " Holesize " ++ core_text hs s x y p (T (unit_string u) ++ q)).
    { unfold core_text. do 12 f_equal. destruct u; reflexivity. }
    rewrite TX. clear TX. unfold matchers.
    assert (M : re_match (hole_comment2 (unit_string u)) (T "T" ++ ds ++ T " Holesize " ++ core_text hs s x y p (T (unit_string u) ++ q)) =
      Some (((([(T "plated", plating_text p); (T "ytol", y); (T "xtol", x); (T "size", s); (T "toolid2", hs)] ++ []) ++ [(T "toolid", ds)]) ++ []), [])).
    { eapply first_match. change (hole_comment2 (unit_string u)) with (Seq (L "T") (Seq (G "toolid" digit12) (Seq (L " Holesize ") (core "toolid2" (unit_string u))))).
      eapply first_seq; [apply first_lit|]. destruct Nd as (D & N & _). eapply first_seq; [apply first_grp; apply digit12_first; auto; reflexivity|].
      eapply first_seq; [apply first_lit|]. eapply core_match; eassumption. }
    eexists _, s, ds, x, y, (plating_text p), xt, yt. split; [|split; [|repeat (split; [assumption|]); unfold kept; cbn [e_from e_plating]; now destruct p]].
    + set (rest := ds ++ _) in *. change (T "T" ++ rest) with ("T"%char :: rest) in *. rewrite match_skip by now apply allegro_fail. rewrite match_skip by now apply comment_fail. destruct u.
      * eapply match_one. exact M.
      * rewrite match_skip.
        2:{ apply fail_match. change (hole_comment2 " MILS Quantity = ") with (Seq (L "T") (Seq (G "toolid" digit12) (Seq (L " Holesize ") (core "toolid2" (unit_string Mils))))).
            apply (fail_after (T "T")). eapply fail_seq_at with (t := T " Holesize " ++ _).
            - intros u0 cs t0 I. apply grp_ways in I as [cs' I]. destruct Nd as (D & N & _). unfold rest in I. apply digit12_ways in I as (a1 & a2 & E & -> & _); auto; [|reflexivity].
              destruct a2 as [|c a2]; [now left|right]. apply seq_lit_head. rewrite E in D. apply Forall_app in D as [_ D]. inversion D as [|? ? Hc _]; subst.
              intros <-. cbn in Hc. intuition discriminate.
            - apply fail_after. eapply core_fail; try eassumption. discriminate. }
        rewrite match_skip by now apply comment_fail. eapply match_one. exact M.
    + repeat split.
Qed.
Definition tool_for (u : unit_) (e : Z * entry) : tool := new_tool (fst e) (measured u (snd e)) None None (kept (snd e)).
Lemma entry_line u e t : table_row e t \/ hole_size e t -> tool_line (Some u) t = Ok (Some (tool_for u e)).
Proof.
  intros H. destruct (entry_match e t H) as (cs & s & ds & x & y & pl & xt & yt & M & (G1 & G2 & G3 & G4 & G5) & Nd & Ds & Dx & Dy & P).
  unfold tool_line. rewrite M, G1, G2, G3, G4, G5. cbn [py_float_opt py_int_opt dflt].
  rewrite (py_float_says _ _ Ds), (py_int_says _ _ Nd), (py_float_says _ _ Dx), (py_float_says _ _ Dy). cbn [bind].
  rewrite convert_says. cbn [bind]. destruct (convert_ok u xt (e_unit (snd e))) as [w1 ->]. destruct (convert_ok u yt (e_unit (snd e))) as [w2 ->]. cbn [bind].
  rewrite P. unfold tool_for. destruct e as [n [f sz k p]]. reflexivity.
Qed.
Lemma unrelated_line u t : unrelated t -> tool_line u (strip t) = Ok None.
Proof.
  intros [_ H]. destruct t as [|c t].
  - reflexivity.
  - destruct H as [Sc H]. destruct (strip_cons c t Sc) as [r ->]. unfold tool_line, matchers.
    assert (Z1 : size_char c = false) by (unfold size_char, one_of; apply char_in_false; intros I; apply H; cbn in *; tauto).
    assert (Z2 : c <> "H"%char) by (intros ->; apply H; cbn; tauto). assert (Z3 : c <> "T"%char) by (intros ->; apply H; cbn; tauto).
    rewrite match_skip by now apply allegro_fail. rewrite match_skip by now apply comment_fail. rewrite match_skip by now apply comment2_fail.
    rewrite match_skip by now apply comment_fail. rewrite match_skip by now apply comment2_fail. reflexivity.
Qed.
Lemma indented_nl (P : text -> Prop) t : (forall x, P x -> no_newline x) -> indented P t -> no_newline t.
Proof.
  intros H [a x b A B Px]. intros I. apply in_app_or in I as [I|I]; [exact (blanks_nl _ A I)|]. apply in_app_or in I as [I|I]; [exact (H x Px I)|exact (blanks_nl _ B I)].
Qed.
Lemma tool_file_nl es ts : tool_file es ts -> Forall no_newline ts.
Proof.
  intros F. induction F as [|e t es ts R F IH|t es ts R F IH]; constructor; auto.
  - eapply indented_nl; [|exact R]. intros x H. apply nl_free_iff. exact (proj2 (entry_text e x H)).
  - eapply indented_nl; [|exact R]. intros x H. apply H.
Qed.
Lemma tool_lines_app u l m : forall d, tool_lines u d (l ++ m) = do d' <- tool_lines u d l; tool_lines u d' m.
Proof. induction l as [|t l IH]; intros d; [reflexivity|]. cbn [app tool_lines]. destruct (tool_line u t) as [o|e]; [apply IH|reflexivity]. Qed.
Lemma tool_file_lines u es ts : tool_file es ts -> forall d, exists d', tool_lines (Some u) d (map strip ts) = Ok d' /\
  forall n, dget n d' = match latest n es with Some e => Some (tool_for u (n, e)) | None => dget n d end.
Proof.
  intros F. induction F as [|e t es ts R F IH|t es ts R F IH]; intros d.
  - exists d. split; reflexivity.
  - destruct R as [a x b A B R]. cbn [map tool_lines]. rewrite strip_around by assumption. rewrite (proj1 (entry_text e x R)), (entry_line u e x R). cbn [bind].
    destruct (IH (dput (t_num (tool_for u e)) (tool_for u e) d)) as (d' & E & V). exists d'. split; [exact E|]. intros n. rewrite V. cbn [latest]. destruct e as [k e].
    cbn [tool_for fst t_num new_tool]. destruct (latest n es); [reflexivity|]. destruct (Z.eqb_spec k n) as [->|NE]; [now rewrite dget_dput_same|now rewrite dget_dput_other].
  - destruct R as [a x b A B R]. cbn [map tool_lines]. rewrite strip_around by assumption. rewrite (unrelated_line (Some u) x R). cbn [bind]. apply IH.
Qed.
Lemma load_file u es ts eol : tool_file es ts -> line_end eol -> exists d, load_tools (Some u) (file_text eol ts) = Ok d /\
  forall n, dget n d = match latest n es with Some e => Some (tool_for u (n, e)) | None => None end.
Proof.
  intros F E. unfold load_tools. rewrite (lines_stripped eol ts E (tool_file_nl es ts F)), tool_lines_app.
  destruct (tool_file_lines u es ts F []) as (d & -> & V). exists d. split; [reflexivity|exact V].
Qed.
Lemma C93_lemma u es ts eol : tool_file es ts -> line_end eol ->
  exists tools, load_tools (Some u) (file_text eol ts) = Ok tools /\
  forall n, match latest n es with
            | None => dget n tools = None
            | Some e => exists t d, dget n tools = Some t /\ t_num t = n /\ unused t /\ t_feed t = None /\ t_rpm t = None /\ t_diam t = Some d /\ near d (diameter_in u e) /\ (e_unit e = Mm -> d = diameter_in u e) /\
                                    (e_from e = Comment -> t_plated t = Some (e_plating e))
            end.
Proof.
  intros F E. destruct (load_file u es ts eol F E) as (d & -> & V). exists d. split; [reflexivity|]. intros n. specialize (V n). destruct (latest n es) as [e|]; [|exact V].
  exists (tool_for u (n, e)), (measured u e). repeat split; auto.
  - apply measured_near.
  - intros U. unfold measured, diameter_in. rewrite U. reflexivity.
  - intros U. cbn. unfold kept. now rewrite U.
Qed.
Lemma holesize_says u e c : indented (hole_size e) c -> holesize false u c = Ok (Some (tool_for u e)).
Proof.
  intros H. unfold holesize, load_tools. assert (N : no_newline c).
  { eapply indented_nl; [|exact H]. intros x Hx. apply nl_free_iff. exact (proj2 (entry_text e x (or_intror Hx))). }
  assert (L1 : lines_of c = [strip c]).
  { unfold lines_of. replace (split_on nl c) with [c]; [reflexivity|]. clear H. induction c as [|x c IH]; [reflexivity|]. cbn [split_on]. rewrite <- IH by (intros I; apply N; now right).
    destruct (ceq_spec x nl) as [->|]; [destruct N; now left|reflexivity]. }
  rewrite L1. destruct H as [a x b A B H]. rewrite strip_around by assumption. rewrite (proj1 (entry_text e x (or_intror H))).
  cbn [tool_lines]. rewrite (entry_line u e x (or_intror H)). cbn [bind dput]. reflexivity.
Qed.

(** ** Columns *)
Lemma separated_words ws t : separated ws t -> words t = ws /\ strip t = t /\ nl_free t.
Proof.
  assert (W0 : forall w, word w -> nl_free w) by (intros w [_ F]; eapply Forall_impl; [|exact F]; intros a Ha ->; discriminate).
  intros S. induction S as [|w W|w g ws t W G S IH N].
  - repeat split. constructor.
  - split; [|split; [|auto]].
    + exact (IpcProofs.words_word w W).
    + apply strip_nospace. apply W.
  - destruct IH as (E1 & E2 & E3). split; [|split].
    + rewrite IpcProofs.words_app; [|exact W|].
      * f_equal. rewrite IpcProofs.words_lead; [exact E1|]. destruct G as [B _]. eapply Forall_impl; [|exact B]. intros a [->| ->]; reflexivity.
      * generalize (gap_head g t (fun c => negb (is_space c)) G eq_refl eq_refl). destruct (g ++ t) as [|c r]; [auto|]. destruct (is_space c); [reflexivity|discriminate].
    + destruct W as [Nw Fw]. destruct w as [|c w]; [contradiction|]. inversion Fw as [|? ? Hc _]; subst.
      assert (L1 : exists r d, t = r ++ [d] /\ is_space d = false).
      { clear - S N. induction S as [|w [Nw Fw]|w g ws t W G S IH N']; [contradiction| |].
        - destruct w as [|c w _] using rev_ind; [contradiction|]. apply Forall_app in Fw as [_ Fw]. inversion Fw; subst. eauto.
        - destruct (IH N') as (r & d & -> & Hd). exists (w ++ g ++ r), d. split; [now rewrite !app_assoc|exact Hd]. }
      destruct L1 as (r & d & -> & Hd). apply (strip_bounds _ c d); [cbn; eauto| |exact Hc|exact Hd]. exists ((c :: w) ++ g ++ r). now rewrite !app_assoc.
    + repeat apply nl_free_app; auto. now apply gap_nl.
Qed.
Lemma columns_nl ws t : columns ws t -> no_newline t.
Proof. apply indented_nl. intros x S. apply nl_free_iff. now apply separated_words in S. Qed.
Lemma columns_words ws t : columns ws t -> exists x, separated ws x /\ strip t = x /\ words x = ws.
Proof. intros [a x b A B S]. exists x. destruct (separated_words _ _ S) as (E1 & E2 & _). repeat split; auto. now rewrite strip_around. Qed.
Lemma separated_head ws t : separated ws t -> match ws with [] => t = [] | w :: _ => exists c r r', t = c :: r /\ w = c :: r' /\ is_space c = false end.
Proof.
  intros [|w [N F]|w g ws' t' [N F] G S N']; [reflexivity|destruct w as [|c w]; [contradiction|]..]; inversion F; subst.
  - exists c, w, w. auto.
  - exists c, (w ++ g ++ t'), w. auto.
Qed.

(** ** Reports *)
Lemma rule_match t : separated rule t -> exists g, re_match report_header t = Some g.
Proof.
  intros S. unfold rule in S. cbn [map] in S.
  assert (ST : forall w ws x, separated (w :: ws) x -> ws <> [] -> exists g y, x = w ++ g ++ y /\ gap g /\ separated ws y).
  { intros w ws x Sx Hn. inversion Sx; subst; [contradiction|]. eauto. }
  destruct (ST _ _ _ S) as (g1 & t1 & -> & G1 & S1); [discriminate|]. destruct (ST _ _ _ S1) as (g2 & t2 & -> & G2 & S2); [discriminate|].
  destruct (ST _ _ _ S2) as (g3 & t3 & -> & G3 & S3); [discriminate|]. destruct (ST _ _ _ S3) as (g4 & t4 & -> & G4 & S4); [discriminate|].
  destruct (ST _ _ _ S4) as (g5 & t5 & -> & G5 & S5); [discriminate|]. inversion S5; subst; [|contradiction].
  eexists. eapply first_match. unfold report_header. cbn [seqs].
  eapply first_seq; [apply first_lit|]. eapply first_seq; [eapply gap_first; [exact G1|reflexivity]|].
  eapply first_seq; [apply first_lit|]. eapply first_seq; [eapply gap_first; [exact G2|reflexivity]|].
  eapply first_seq; [apply first_lit|]. eapply first_seq; [eapply gap_first; [exact G3|reflexivity]|].
  eapply first_seq; [apply first_lit|]. eapply first_seq; [eapply gap_first; [exact G4|reflexivity]|].
  eapply first_seq; [apply first_lit|]. eapply first_seq; [eapply gap_first; [exact G5|reflexivity]|].
  rewrite <- (app_nil_r (T "===")) at 1. apply first_lit.
Qed.
Definition drill_tool (e : Z * drill) : tool :=
  new_tool (fst e) (dr_size (snd e)) (Some (zq (dr_feed (snd e)))) (Some (zq (dr_speed (snd e)))) (dr_plating (snd e)).
Lemma row_line e t d : report_row e t -> report_line (true, d) (strip t) = Ok (true, dput (fst e) (drill_tool e) d).
Proof.
  intros [i n s size w f feed v speed q k t' Ni Ds W Nf Nv Nq C]. destruct (columns_words _ _ C) as (x & S & -> & E). unfold report_line.
  rewrite (proj1 (proj2 (separated_words _ _ S))). destruct (separated_head _ _ S) as (c & r & r' & -> & Ei & Hc). cbn [negb hd].
  assert (Dc : is_digit c = true) by (generalize (digits_head _ _ [] Ni); rewrite app_nil_r, Ei; auto). rewrite (digit_neq c) by (auto; reflexivity).
  rewrite E. rewrite (py_int_says _ _ Ni), (py_float_says _ _ Ds), (py_int_says _ _ Nf), (py_int_says _ _ Nv), (py_int_says _ _ Nq). cbn [bind]. reflexivity.
Qed.
Lemma other_line ws t d : columns ws t -> match ws with [] => True | w :: _ => hd " "%char w = "="%char \/ List.length ws <> 6%nat end ->
  report_line (true, d) (strip t) = Ok (true, d).
Proof.
  intros C H. destruct (columns_words _ _ C) as (x & S & -> & E). unfold report_line. rewrite (proj1 (proj2 (separated_words _ _ S))).
  assert (SH := separated_head _ _ S). destruct ws as [|w ws]; [now rewrite SH|]. destruct SH as (c & r & r' & -> & -> & Hc). cbn [negb hd] in *.
  destruct H as [->|H]; [reflexivity|]. destruct (ceq c "="%char); [reflexivity|]. rewrite E.
  destruct ws as [|w1 [|w2 [|w3 [|w4 [|w5 [|w6 ws]]]]]]; try reflexivity. exfalso. now apply H.
Qed.
Lemma heading_line t d : heading t -> report_line (false, d) (strip t) = Ok (false, d).
Proof.
  intros (ws & C & H). destruct (columns_words _ _ C) as (x & S & -> & E). unfold report_line. rewrite (proj1 (proj2 (separated_words _ _ S))).
  assert (SH := separated_head _ _ S). destruct ws as [|w ws]; [now rewrite SH|]. destruct SH as (c & r & r' & -> & -> & Hc). cbn [negb hd] in *.
  rewrite fail_match; [reflexivity|]. apply seq_lit_head. congruence.
Qed.
Lemma rule_line t d : columns rule t -> report_line (false, d) (strip t) = Ok (true, d).
Proof.
  intros C. destruct (columns_words _ _ C) as (x & S & -> & E). unfold report_line. rewrite (proj1 (proj2 (separated_words _ _ S))).
  destruct (rule_match x S) as [g G]. destruct (separated_head _ _ S) as (c & r & r' & -> & _ & _). cbn [negb]. now rewrite G.
Qed.
Lemma report_lines_app l m : forall d, report_lines d (l ++ m) = do d' <- report_lines d l; report_lines d' m.
Proof. induction l as [|t l IH]; intros d; [reflexivity|]. cbn [app report_lines]. destruct (report_line d t) as [o|e]; [apply IH|reflexivity]. Qed.
Lemma headings_lines hs d : Forall heading hs -> report_lines (false, d) (map strip hs) = Ok (false, d).
Proof. intros F. induction F as [|t hs H F IH]; [reflexivity|]. cbn [map report_lines]. now rewrite heading_line. Qed.
Lemma rows_lines es ts : report_rows es ts -> forall d, exists d', report_lines (true, d) (map strip ts) = Ok (true, d') /\
  forall n, dget n d' = match latest n es with Some e => Some (drill_tool (n, e)) | None => dget n d end.
Proof.
  intros F. induction F as [|e t es ts R F IH|t es ts ws C H F IH]; intros d.
  - exists d. split; reflexivity.
  - cbn [map report_lines]. rewrite (row_line e t d R). cbn [bind].
    destruct (IH (dput (fst e) (drill_tool e) d)) as (d' & E & V). exists d'. split; [exact E|]. intros n. rewrite V. cbn [latest]. destruct e as [k e]. cbn [fst].
    destruct (latest n es); [reflexivity|]. destruct (Z.eqb_spec k n) as [->|NE]; [now rewrite dget_dput_same|now rewrite dget_dput_other].
  - cbn [map report_lines]. rewrite (other_line ws t d C H). cbn [bind]. apply IH.
Qed.
Lemma rows_nl es ts : report_rows es ts -> Forall no_newline ts.
Proof.
  intros F. induction F as [|e t es ts R F IH|t es ts ws C H F IH]; constructor; auto; [|eapply columns_nl; exact C]. destruct R. eapply columns_nl. eassumption.
Qed.
Lemma C95_lemma hs bar es ts eol : Forall heading hs -> columns rule bar -> report_rows es ts -> line_end eol ->
  exists tools, load_report (file_text eol (hs ++ bar :: ts)) = Ok tools /\
  forall n, match latest n es with
            | None => dget n tools = None
            | Some e => exists t, dget n tools = Some t /\ t_num t = n /\ unused t /\ t_diam t = Some (dr_size e) /\ t_plated t = dr_plating e /\
                                  t_feed t = Some (zq (dr_feed e)) /\ t_rpm t = Some (zq (dr_speed e))
            end.
Proof.
  intros H B R E. unfold load_report. rewrite lines_stripped; [|exact E|].
  2:{ apply Forall_app. split; [eapply Forall_impl; [|exact H]; intros t (ws & C & _); eapply columns_nl; exact C|]. constructor; [eapply columns_nl; exact B|eapply rows_nl; exact R]. }
  rewrite map_app. cbn [map]. rewrite <- app_assoc. rewrite report_lines_app, headings_lines by exact H. cbn [bind app report_lines]. rewrite (rule_line bar [] B). cbn [bind].
  rewrite report_lines_app. destruct (rows_lines es ts R []) as (d & -> & V). cbn [bind report_lines snd].
  exists d. split; [reflexivity|]. intros n. specialize (V n). destruct (latest n es) as [e|]; [|exact V]. eexists. split; [exact V|]. repeat split.
Qed.

(** ** Settings files *)
Definition keep {A} (new old : option A) : option A := match new with Some a => Some a | None => old end.
Definition notation_of (b : bool) : text := if b then T "absolute" else T "relative".
Definition units_of (u : unit_) : text := match u with Inch => T "inch" | Metric => T "metric" end.
Definition updated (vs : values) (l : list setting) : values :=
  mkValues (keep (option_map notation_of (last_of coordinates l)) (v_notation vs)) (keep (option_map units_of (last_of output_units l)) (v_units vs))
           (keep (last_of integer_places l) (v_int vs)) (keep (last_of decimal_places l) (v_dec vs)).
Lemma words_strip ws t : columns ws t -> words (strip t) = ws.
Proof. intros C. destruct (columns_words _ _ C) as (x & S & -> & E). exact E. Qed.
Lemma setting_says vs s t : setting_line s t -> settings_line vs (strip t) = Ok (updated vs [s]).
Proof.
  intros H. unfold settings_line. destruct H as [t C|t C|t C|t C|n ds t Nd C|n ds t Nd C]; rewrite (words_strip _ _ C); try reflexivity.
  - change (teq (T "INTEGER-PLACES") (T "INTEGER-PLACES")) with true. cbn iota. rewrite (py_int_says _ _ Nd). reflexivity.
  - change (teq (T "DECIMAL-PLACES") (T "INTEGER-PLACES")) with false. change (teq (T "DECIMAL-PLACES") (T "DECIMAL-PLACES")) with true. cbn iota. rewrite (py_int_says _ _ Nd). reflexivity.
Qed.
Lemma setting_other vs ws t : columns ws t -> match ws with [] => True | w :: _ => ~ In w setting_names end -> settings_line vs (strip t) = Ok vs.
Proof.
  intros C H. unfold settings_line. rewrite (words_strip _ _ C). destruct ws as [|k [|v [|w ws]]]; try reflexivity.
  assert (K : forall s, In (T s) setting_names -> teq k (T s) = false).
  { intros s I. destruct (teq k (T s)) eqn:E; [|reflexivity]. apply teq_true in E. subst. contradiction. }
  rewrite !K by (cbn; tauto). reflexivity.
Qed.
Lemma updated_cons vs s l : updated (updated vs [s]) l = updated vs (s :: l).
Proof.
  unfold updated. cbn [last_of v_notation v_units v_int v_dec].
  destruct (last_of coordinates l), (last_of output_units l), (last_of integer_places l), (last_of decimal_places l), s; reflexivity.
Qed.
Lemma settings_lines_says es ts : settings_file es ts -> forall vs, settings_lines vs (map strip ts) = Ok (updated vs es).
Proof.
  intros F. induction F as [|e t es ts R F IH|ws t es ts C H F IH]; intros vs.
  - destruct vs; reflexivity.
  - cbn [map settings_lines]. rewrite (setting_says vs e t R). cbn [bind]. rewrite IH. now rewrite updated_cons.
  - cbn [map settings_lines]. rewrite (setting_other vs ws t C H). cbn [bind]. apply IH.
Qed.
Lemma settings_nl es ts : settings_file es ts -> Forall no_newline ts.
Proof.
  intros F. induction F as [|e t es ts R F IH|ws t es ts C H F IH]; constructor; auto; [|eapply columns_nl; exact C]. destruct R; eapply columns_nl; eassumption.
Qed.
Lemma settings_lines_app l m : forall d, settings_lines d (l ++ m) = do d' <- settings_lines d l; settings_lines d' m.
Proof. induction l as [|t l IH]; intros d; [reflexivity|]. cbn [app settings_lines]. destruct (settings_line d t) as [o|e]; [apply IH|reflexivity]. Qed.
Lemma settings_read es ts eol : settings_file es ts -> line_end eol ->
  load_settings (file_text eol ts) =
    do n <- key (option_map notation_of (last_of coordinates es)); do u <- key (option_map units_of (last_of output_units es));
    do i <- key (last_of integer_places es); do d <- key (last_of decimal_places es);
    file_settings (VStr n) (VStr u) None (VSeq [i; d]) None (SettingsModel.S "degrees").
Proof.
  intros F E. unfold load_settings. rewrite (lines_stripped eol ts E (settings_nl _ _ F)), settings_lines_app, (settings_lines_says es ts F). cbn [bind settings_lines]. unfold settings_line. cbn [words].
  unfold updated. cbn [v_notation v_units v_int v_dec].
  destruct (last_of coordinates es), (last_of output_units es), (last_of integer_places es), (last_of decimal_places es); reflexivity.
Qed.
Lemma C96_lemma es ts eol u i d : settings_file es ts -> line_end eol ->
  last_of coordinates es = Some true -> last_of output_units es = Some u -> last_of integer_places es = Some i -> last_of decimal_places es = Some d ->
  exists s, load_settings (file_text eol ts) = Ok s /\ notation s = SettingsModel.S "absolute" /\
    units s = (match u with Inch => SettingsModel.S "inch" | Metric => SettingsModel.S "metric" end) /\ format s = VSeq [i; d].
Proof.
  intros F E A B C D. rewrite (settings_read es ts eol F E), A, B, C, D. cbn [option_map key bind]. destruct u; eexists; (split; [reflexivity|]); repeat split.
Qed.
Lemma C96_missing_lemma es ts eol : settings_file es ts -> line_end eol ->
  last_of coordinates es = None \/ last_of output_units es = None \/ last_of integer_places es = None \/ last_of decimal_places es = None ->
  load_settings (file_text eol ts) = Err KeyError.
Proof.
  intros F E H. rewrite (settings_read es ts eol F E).
  destruct (last_of coordinates es), (last_of output_units es), (last_of integer_places es), (last_of decimal_places es); try reflexivity.
  destruct H as [H|[H|[H|H]]]; discriminate.
Qed.
