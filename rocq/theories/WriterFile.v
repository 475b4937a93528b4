(** Whole files: the header the writer makes, reading the statements, and reading the text. *)
From Verif Require Import PyBase QcLib NumModel NumSpec GerberText GerberTextSpec GerberTextProofs MacroModel GerberEval GerberEvalSpec GerberEvalProofs WriterModel WriterSpec WriterProofs WriterRound.
Open Scope Qc_scope.
Open Scope list_scope.

(** ** Definitions *)
Lemma qclt_irr : qclt 0 0 = false. Proof. reflexivity. Qed.
Lemma pos_absent o : absent o -> match o with Some v => qclt 0 v | None => false end = false.
Proof. intros [->| ->]; reflexivity. Qed.
Lemma pos_some v : 0 < v -> qclt 0 v = true.
Proof. intro H. destruct (qclt_spec 0 v); [reflexivity|contradiction]. Qed.
Lemma hole_mods_is h d w k : hole_is h d w k ->
  (hole_mods h = [] /\ d = 0 /\ w = 0 /\ k = 0) \/ (hole_mods h = [d] /\ w = 0 /\ k = 0) \/ (hole_mods h = [w; k] /\ d = 0).
Proof.
  destruct h as [[hd hw] hk]. unfold hole_is, hole_mods. intros [(A & B & C & -> & -> & ->)|[(-> & P & B & C & -> & ->)|(A & -> & -> & P & -> & P')]].
  - left. rewrite (pos_absent _ A), (pos_absent _ B). auto.
  - right. left. rewrite (pos_some _ P). auto.
  - right. right. rewrite (pos_absent _ A), (pos_some _ P), (pos_some _ P'). auto.
Qed.
Lemma hole_mods_some h : hole_mods h = [] \/ (exists a, hole_mods h = [a]) \/ exists a b, hole_mods h = [a; b].
Proof. destruct h as [[a b] c]. unfold hole_mods. destruct (match a with Some v => qclt 0 v | None => false end); [eauto|]. destruct (_ && _); eauto. Qed.
Lemma py_trunc_int n : py_trunc (zq n) = n.
Proof.
  unfold py_trunc. assert (E : this (zq n) = inject_Z n) by (unfold zq; cbn [this Q2Qc]; unfold inject_Z, Qred; pose proof (Z.ggcd_gcd n 1) as G; pose proof (Z.ggcd_correct_divisors n 1) as D; rewrite Z.gcd_1_r in G; destruct (Z.ggcd n 1) as [g [a b]]; cbn in G; subst g; destruct D as [D1 D2]; cbn; rewrite !Z.mul_1_l in *; subst; reflexivity).
  rewrite E. cbn. apply Z.quot_1_r.
Qed.
Lemma define_key past k d s : key_is k s -> exists name dims, definition_stmt k d = SAD d name [dims] /\ definition past name dims = Some s.
Proof.
  intro K. destruct k as [dia h|w h hs|w h hs|r n t hs], s as [d' a b c|w' h' a b c|w' h' a b c|n' r' t' a b c|]; cbn [key_is] in K; try contradiction; cbn [definition_stmt].
  - destruct K as [-> H]. eexists _, _. split; [reflexivity|]. destruct (hole_mods_is _ _ _ _ H) as [(-> & -> & -> & ->)|[(-> & -> & ->)|(-> & ->)]]; reflexivity.
  - destruct K as (-> & -> & H). eexists _, _. split; [reflexivity|]. destruct (hole_mods_is _ _ _ _ H) as [(-> & -> & -> & ->)|[(-> & -> & ->)|(-> & ->)]]; reflexivity.
  - destruct K as (-> & -> & H). eexists _, _. split; [reflexivity|]. destruct (hole_mods_is _ _ _ _ H) as [(-> & -> & -> & ->)|[(-> & -> & ->)|(-> & ->)]]; reflexivity.
  - destruct K as (-> & -> & -> & H). eexists _, _. split; [reflexivity|].
    assert (E1 : whole_part (zq n) = n) by (rewrite whole_part_is; apply py_trunc_int).
    assert (E2 : r * zq 2 / zq 2 = r) by (field; discriminate).
    unfold definition. change (teq (T "P") (T "C")) with false. change (teq (T "P") (T "R")) with false. change (teq (T "P") (T "O")) with false. change (teq (T "P") (T "P")) with true. cbv iota.
    destruct (hole_mods_is _ _ _ _ H) as [(-> & -> & -> & ->)|[(-> & -> & ->)|(-> & ->)]]; rewrite E1, E2; reflexivity.
Qed.
Lemma define_some past k d : exists name dims s, definition_stmt k d = SAD d name [dims] /\ definition past name dims = Some s.
Proof.
  destruct k as [dia h|w h hs|w h hs|r n t hs]; cbn [definition_stmt];
    match goal with |- context [hole_mods ?h] => destruct (hole_mods_some h) as [->|[[a ->]|[a [b ->]]]] end; eexists _, _, _; (split; [reflexivity|]); reflexivity.
Qed.
Lemma definition_is_SAD k d : exists name mods, definition_stmt k d = SAD d name mods.
Proof. destruct k; cbn; eauto. Qed.

(** ** The header *)
Section Header.
Variable fc : centre_fun.
Variable b : bool.
Variable st : pset.
Definition seen : unit_ := if b then p_units st else Inch.
Lemma defs_app t x : defs (t ++ [x]) = defs t ++ [definition_stmt (fst x) (snd x)].
Proof. unfold defs. now rewrite map_app. Qed.
Lemma header_units t : current_units (rev (base b st ++ defs t)) = seen.
Proof.
  induction t as [|x t IH] using rev_ind; [unfold seen; destruct b; reflexivity|].
  rewrite defs_app, app_assoc, rev_app_distr. destruct (definition_is_SAD (fst x) (snd x)) as (n & m & ->). exact IH.
Qed.
Lemma header_aperture t k d s : NoDup (map snd t) -> In (k, d) t -> key_is k s ->
  aperture_of d (rev (base b st ++ defs t)) = Some (mkObj s None Dark seen).
Proof.
  induction t as [|x t IH] using rev_ind; [contradiction|]. intros N I K. rewrite map_app in N. rewrite defs_app, app_assoc, rev_app_distr. cbn [rev app].
  apply in_app_or in I as [I|[->|[]]].
  - destruct (definition_is_SAD (fst x) (snd x)) as (n & m & ->). cbn [aperture_of]. destruct (Z.eq_dec (snd x) d) as [E|_].
    + exfalso. apply NoDup_remove_2 in N. rewrite app_nil_r in N. apply N. rewrite E. apply in_map_iff. now exists (k, d).
    + apply IH; [|exact I|exact K]. apply NoDup_remove_1 in N. now rewrite app_nil_r in N.
  - cbn [fst snd]. destruct (define_key (rev (base b st ++ defs t)) k d s K) as (n & m & -> & D). cbn [aperture_of]. destruct (Z.eq_dec d d) as [_|X]; [|congruence].
    cbn [hd]. now rewrite D, header_units.
Qed.
Lemma header_plain t : in_region (rev (base b st ++ defs t)) = Off /\ contour fc (rev (base b st ++ defs t)) = [] /\ current_polarity (rev (base b st ++ defs t)) = Dark.
Proof.
  induction t as [|x t (I1 & I2 & I3)] using rev_ind; [repeat split|].
  rewrite defs_app, app_assoc, rev_app_distr. destruct (definition_is_SAD (fst x) (snd x)) as (n & m & ->). cbn [rev app].
  split; [exact I1|]. split; [|exact I3]. cbn [contour action]. rewrite I1. exact I2.
Qed.
Lemma header_image t : image fc [] (base b st ++ defs t) = Some [].
Proof.
  assert (G : forall t past, image fc past (defs t) = Some []).
  { clear t. induction t as [|x t IH]; intro past; [reflexivity|]. cbn [defs map image]. destruct (definition_is_SAD (fst x) (snd x)) as (n & m & ->). cbn [marks action]. now rewrite IH. }
  cbn [base app image marks action]. now rewrite G.
Qed.
Lemma header_ok t : forall past rest, (forall past, definitions_ok past rest) -> definitions_ok past (defs t ++ rest).
Proof.
  induction t as [|x t IH]; intros past rest H; [apply H|]. cbn [defs map app definitions_ok].
  destruct (define_some past (fst x) (snd x)) as (n & m & s & -> & D). split; [|now apply IH]. exists m, [], s. auto.
Qed.
Lemma header_sync t : NoDup (map snd t) -> sync fc t seen Off [] (rev (base b st ++ defs t)) (new_context st).
Proof.
  intro N. destruct (header_plain t) as (H1 & H2 & H3). split; cbn [new_context c_pol c_pos c_func c_quad c_dcode or_else]; auto; try discriminate; [apply header_units|].
  intros k d s I K. now apply header_aperture with k.
Qed.
End Header.
Lemma body_ok pg pc l : Forall (ok_stmt pg pc) l -> forall past, definitions_ok past (l ++ [SEof]).
Proof.
  induction 1 as [|s l S L IH]; intro past; [cbn; auto|]. cbn [app definitions_ok]. split; [|apply IH]. destruct s; auto; contradiction.
Qed.

(** The statements, with the unit statement of either kind. *)
Definition statements_of (b : bool) (st : pset) (c : ctx) : list stmt := base b st ++ defs (c_table c) ++ c_body c ++ [SEof].
Lemma statements_same st c : book st c -> statements c = statements_of false st c.
Proof. intros [H _ _ _ _ _ _ _]. unfold statements, statements_of. now rewrite H, <- app_assoc. Qed.

Lemma everything_g l : Forall (item_g (fun _ => True) (fun _ => True) (fun _ => True)) l.
Proof.
  assert (G : forall s, stroke_g (fun _ => True) (fun _ => True) s) by (intro s; unfold stroke_g, pgp; destruct s; auto 10).
  apply Forall_forall. intros x _. split; [auto|]. destruct (i_thing x); auto; [apply Forall_forall; auto|]. unfold pgp. auto.
Qed.
Lemma image_lemma fc b st o l c : Forall (supported fc o) l -> render_all o l (new_context st) = Ok c ->
  exists g l' ms, evaluate_all fc g_init (statements_of b st c) = Ok (g, l') /\ shown g = map Some ms /\ Forall2 (reads_as (seen b st)) l ms.
Proof.
  intros S H. destruct (kept_all st o l _ _ H (new_book st)) as [B _].
  pose proof (header_sync fc b st (c_table c) (b_codes _ _ B)) as SY.
  destruct (all_sync fc (c_table c) (seen b st) o l S _ _ _ SY H (incl_refl _)) as (ms & past' & (bd & EB & EP & IM) & SY' & R).
  cbn [new_context c_body app] in EB.
  assert (CL : clean (fun _ => True) (fun _ => True) (fun _ => True) c) by (eapply clean_all; [apply everything_g| |exact H]; split; constructor).
  assert (D : definitions_ok [] (statements_of b st c)).
  { unfold statements_of. cbn [base app definitions_ok]. split; [exact Logic.I|]. split; [exact Logic.I|]. apply header_ok. destruct CL as [CL _]. eapply body_ok. exact CL. }
  assert (IMG : image fc [] (statements_of b st c) = Some ms).
  { unfold statements_of. rewrite app_assoc, EB. rewrite (image_app fc _ [] _ [] (ms ++ [])); [now rewrite app_nil_r|apply header_image|].
    rewrite app_nil_r. apply image_app; [exact IM|reflexivity]. }
  destruct (evaluate_all fc g_init (statements_of b st c)) as [[g l']|e] eqn:E.
  - destruct (evaluate_image fc _ _ _ _ _ (inv_init fc) E) as (_ & ms' & IM' & SH). rewrite IMG in IM'. injection IM' as <-. exists g, l', ms. auto.
  - destruct (evaluate_all_error fc _ _ _ _ (inv_init fc) D E) as [_ N]. congruence.
Qed.

(** ** As text *)
Definition key_exact (k : key) : Prop :=
  match k with
  | KCircle d h => at_most_digits 4 d /\ holes_exact h
  | KRect w k h | KObround w k h => at_most_digits 4 w /\ at_most_digits 4 k /\ holes_exact h
  | KPolygon r n t h => at_most_digits 4 (zq n) /\ at_most_digits 4 (r * zq 2) /\ at_most_digits 4 t /\ holes_exact h
  end.
Lemma no_holes_exact : holes_exact no_holes.
Proof. cbn. repeat constructor; discriminate. Qed.
Lemma mods_exact h : holes_exact h -> Forall (at_most_digits 4) (hole_mods h).
Proof.
  destruct h as [[a b] c]. unfold holes_exact, hole_mods. intro H. inversion H as [|? ? Ha H1]; subst. inversion H1 as [|? ? Hb H2]; subst. inversion H2 as [|? ? Hc _]; subst.
  destruct a as [a|]; [destruct (qclt 0 a); [repeat constructor; now apply Ha|]|]; (destruct b as [b|]; [|constructor]); (destruct c as [c|]; [|rewrite andb_false_r; constructor]);
    (destruct (qclt 0 b && qclt 0 c); [|constructor]); repeat constructor; cbn; auto.
Qed.
Lemma key_writable st k d : (10 <= d)%Z -> key_exact k -> writable st (definition_stmt k d).
Proof.
  intros D K. destruct k; cbn [definition_stmt key_exact] in *.
  - destruct K as [K1 K2]. apply W_define_circle; [lia|]. constructor; [exact K1|now apply mods_exact].
  - destruct K as (K1 & K2 & K3). apply W_define_other; [lia|cbn; auto|discriminate|]. constructor; [exact K1|]. constructor; [exact K2|now apply mods_exact].
  - destruct K as (K1 & K2 & K3). apply W_define_other; [lia|cbn; auto|discriminate|]. constructor; [exact K1|]. constructor; [exact K2|now apply mods_exact].
  - destruct K as (K1 & K2 & K3 & K4). apply W_define_other; [lia|cbn; auto|discriminate|]. constructor; [exact K2|]. constructor; [exact K1|]. constructor; [exact K3|now apply mods_exact].
Qed.
Definition plain_comment (t : text) : Prop := Forall (fun x => ~ In x (T "*%" ++ [nl; cr])) t.
Lemma figure_key_exact f : figure_exact f -> key_exact (figure_key f).
Proof. destruct f; cbn; auto. Qed.
Lemma draw_key_exact f k : figure_exact f -> draw_key f = Some k -> key_exact k.
Proof.
  intros E D. pose proof no_holes_exact as N. destruct f; cbn [draw_key] in D; try discriminate; injection D as <-; cbn [figure_exact key_exact] in *; tauto.
Qed.
Lemma stroke_exact_g st s : stroke_exact st s -> stroke_g (on_grid st) key_exact s.
Proof.
  intros (A & B & K & O). split; [exact A|]. split; [exact B|]. split; [|destruct s; [exact Logic.I|exact O]].
  intros f k E D. eapply draw_key_exact; eauto.
Qed.
Lemma item_exact_g st x : item_exact st x -> item_g (on_grid st) plain_comment key_exact x.
Proof.
  intros [C E]. split; [exact C|]. destruct (i_thing x).
  - now apply stroke_exact_g.
  - eapply Forall_impl; [|exact E]. intros a. apply stroke_exact_g.
  - destruct E as [E1 E2]. split; [now apply figure_key_exact|exact E2].
  - exact Logic.I.
  - exact Logic.I.
Qed.
Lemma write_same st c : book st c -> write_file st (statements c) = write_file st (statements_of true st c).
Proof. intro B. rewrite (statements_same st c B). reflexivity. Qed.
Lemma body_writable st c : book st c -> Forall (ok_stmt (on_grid st) plain_comment) (c_body c) -> Forall (writable st) (c_body c).
Proof.
  intros B F. rewrite Forall_forall in *. intros s I. specialize (F s I). destruct s; cbn [ok_stmt] in F; try contradiction.
  all: try (destruct F as (F1 & F2 & F3 & F4 & F5 & F6 & F7); now apply W_coord).
  all: try (constructor; assumption).
  all: try (now constructor).
  subst. apply W_aperture. pose proof (b_used _ _ B _ _ I) as U. apply in_map_iff in U as ((k & d') & E & U). cbn in E. subst.
  pose proof (b_range _ _ B) as R. rewrite Forall_forall in R. specialize (R _ U). cbn in R. lia.
Qed.
Lemma text_lemma fc st o l c : announceable st -> Forall (supported fc o) l -> Forall (item_exact st) l -> render_all o l (new_context st) = Ok c ->
  exists t, dump st c = Ok t /\ forall fs, exists l' st', parse_text fs t = Ok (l', st') /\ p_units st' = p_units st /\
    exists g l'' ms, evaluate_all fc g_init l' = Ok (g, l'') /\ shown g = map Some ms /\ Forall2 (reads_as (p_units st)) l ms.
Proof.
  intros A S X H. destruct (kept_all st o l _ _ H (new_book st)) as [B _].
  assert (CL : clean (on_grid st) plain_comment key_exact c).
  { refine (clean_all _ _ _ o l _ (new_context st) c _ H); [|split; constructor]. eapply Forall_impl; [|exact X]. apply item_exact_g. }
  destruct CL as [CB CT].
  assert (W : Forall (line_writable st) (statements_of true st c)).
  { eapply Forall_impl; [apply LW_stmt|]. unfold statements_of, base. cbn [app]. constructor; [apply W_format|]. constructor; [apply W_units|].
    apply Forall_app. split; [|apply Forall_app; split; [now apply body_writable|repeat constructor]].
    unfold defs. apply Forall_map. pose proof (b_range _ _ B) as R. rewrite Forall_forall in *. intros [k d] I. apply key_writable; [apply (R _ I)|apply (CT _ I)]. }
  destruct (file_roundtrip st (statements_of true st c) A W Logic.I) as (t & E & P). exists t. split; [unfold dump; rewrite (write_same st c B); exact E|].
  intro fs. eexists _, _. split; [apply P|]. split.
  - unfold statements_of, base. cbn [app fold_left after pset0 p_units]. 
    assert (G : forall l s, (forall x, In x l -> match x with SFS _ _ _ | SMO _ _ => False | _ => True end) -> fold_left after l s = s).
    { clear. induction l as [|x l IH]; intros s F; [reflexivity|]. cbn [fold_left]. rewrite IH by (intros y J; apply F; now right). specialize (F x (or_introl eq_refl)). destruct x; try reflexivity; contradiction. }
    rewrite G; [reflexivity|]. intros x I. apply in_app_or in I as [I|I].
    + apply in_map_iff in I as (y & <- & _). destruct (definition_is_SAD (fst y) (snd y)) as (n & m & ->). exact Logic.I.
    + apply in_app_or in I as [I|I]; [|destruct I as [<-|[]]; exact Logic.I]. rewrite Forall_forall in CB. specialize (CB x I). destruct x; cbn in CB; auto.
  - exact (image_lemma fc true st o l c S H).
Qed.

(** ** Statements of the properties *)
Lemma round_trip_lemma fc o st l : Forall (supported fc o) l -> round_trips fc o st Inch l.
Proof.
  intro S. destruct (all_ok fc o l S (new_context st)) as [c H]. destruct (kept_all st o l _ _ H (new_book st)) as [B _].
  destruct (image_lemma fc false st o l c S H) as (g & l' & ms & E & SH & R). exists c, g, l', ms.
  rewrite (statements_same st c B). auto.
Qed.
Lemma text_trip_lemma fc o st l : announceable st -> Forall (supported fc o) l -> Forall (item_exact st) l ->
  exists c t, render_all o l (new_context st) = Ok c /\ dump st c = Ok t /\
    forall fs, exists l' st' g l'' ms, parse_text fs t = Ok (l', st') /\ p_units st' = p_units st /\
      evaluate_all fc g_init l' = Ok (g, l'') /\ shown g = map Some ms /\ Forall2 (reads_as (p_units st)) l ms.
Proof.
  intros A S X. destruct (all_ok fc o l S (new_context st)) as [c H]. destruct (text_lemma fc st o l c A S X H) as (t & D & R).
  exists c, t. split; [exact H|]. split; [exact D|]. intro fs. destruct (R fs) as (l' & st' & P & U & g & l'' & ms & E & SH & F). exists l', st', g, l'', ms. auto.
Qed.

(** The marks read, for computing counterexamples. *)
Definition marks_read fc o st l : list (option mark) :=
  match render_all o l (new_context st) with
  | Ok c => match evaluate_all fc g_init (statements c) with Ok (g, _) => shown g | Err _ => [] end
  | Err _ => []
  end.
Lemma round_trips_marks fc o st u l : round_trips fc o st u l -> exists ms, marks_read fc o st l = map Some ms /\ Forall2 (reads_as u) l ms.
Proof. intros (c & g & l' & ms & H & E & S & F). exists ms. unfold marks_read. rewrite H, E. auto. Qed.
Lemma no_trip_count fc o st u l : List.length (marks_read fc o st l) <> List.length l -> ~ round_trips fc o st u l.
Proof.
  intros N R. destruct (round_trips_marks _ _ _ _ _ R) as (ms & E & F). apply N. rewrite E, map_length. clear - F. induction F; cbn; congruence.
Qed.
Lemma no_trip_one {A} (f : mark -> A) fc o st u x a : map (option_map f) (marks_read fc o st [x]) = [Some a] ->
  (forall m, reads_as u x m -> f m <> a) -> ~ round_trips fc o st u [x].
Proof.
  intros E N R. destruct (round_trips_marks _ _ _ _ _ R) as (ms & M & F). rewrite M in E. inversion F as [|? m ? ? H F']; subst. inversion F'; subst.
  cbn in E. injection E as E. now apply (N m).
Qed.
Lemma same_shape_lemma f g s : same_figure f g -> figure_is f s -> match f with FRect _ _ _ _ | FObround _ _ _ _ => False | _ => True end -> figure_is g s.
Proof. destruct f, g, s; cbn; try contradiction; try tauto; intuition congruence. Qed.

(** ** D-codes of a whole file *)
Lemma codes_app a b : codes (a ++ b) = codes a ++ codes b.
Proof. apply flat_map_app. Qed.
Lemma codes_file st o l c : render_all o l (new_context st) = Ok c ->
  NoDup (codes (statements c)) /\ Forall (fun d => (10 <= d)%Z) (codes (statements c)) /\
  (forall before d x after, statements c = before ++ SAp d x :: after -> In d (codes before)).
Proof.
  intro H. destruct (codes_lemma st o l c H) as (N & R & U). destruct (kept_all st o l _ _ H (new_book st)) as [B _].
  assert (CL : clean (fun _ => True) (fun _ => True) (fun _ => True) c) by (eapply clean_all; [apply everything_g| |exact H]; split; constructor).
  destruct CL as [CL _].
  assert (CB : codes (c_body c) = []).
  { clear - CL. induction CL as [|s l S L IH]; [reflexivity|]. cbn. unfold codes in IH. rewrite IH. destruct s; try reflexivity; contradiction. }
  assert (CS : codes (statements c) = codes (c_header c)) by (unfold statements; rewrite !codes_app, CB; cbn; apply app_nil_r).
  rewrite CS. split; [exact N|]. split; [exact R|]. intros before d x after E.
  assert (HD : forall s, In s (c_header c) -> is_select s = false).
  { intros s I. rewrite (b_header _ _ B) in I. apply in_app_or in I as [[<-|[<-|[]]]|I]; [reflexivity..|]. apply in_map_iff in I as (y & <- & _). destruct (fst y); reflexivity. }
  assert (P : exists rest, before = c_header c ++ rest /\ c_body c ++ [SEof] = rest ++ SAp d x :: after).
  { unfold statements in E. revert before E. clear - HD. induction (c_header c) as [|s h IH]; intros before E; [exists before; auto|].
    destruct before as [|s' before]; cbn in E; injection E as E1 E2.
    - specialize (HD s (or_introl eq_refl)). subst s. discriminate.
    - subst s'. destruct (IH (fun s I => HD s (or_intror I)) before E2) as (rest & -> & R). exists rest. auto. }
  destruct P as (rest & -> & E2). rewrite codes_app. apply in_or_app. left. apply (U d x).
  assert (I : In (SAp d x) (c_body c ++ [SEof])) by (rewrite E2; apply in_or_app; right; now left).
  apply in_app_or in I as [I|[I|[]]]; [exact I|discriminate].
Qed.
