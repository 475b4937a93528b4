(** Whole files with flashes of macros. *)
From Verif Require Import PyBase QcLib NumModel NumSpec NumProofs GerberText GerberTextSpec GerberTextProofs MacroModel GerberEval GerberEvalSpec GerberEvalProofs WriterModel WriterSpec WriterProofs WriterRound WriterFile.
From Verif Require Import SplitModel AmModel AmSpec AmProofs AmWrite AmRenderSpec AmRenderProofs.
Open Scope Qc_scope.
Open Scope list_scope.

(** ** Reading the text *)
Lemma write_app st a b ta tb : write_file st a = Ok ta -> write_file st b = Ok tb -> write_file st (a ++ b) = Ok (ta ++ tb).
Proof.
  revert ta. induction a as [|s a IH]; intros ta Ha Hb; [apply ok_inj in Ha as <-; exact Hb|]. cbn [write_file app] in *.
  destruct (to_gerber st s) as [t|]; [|discriminate]. cbn [bind] in *. destruct (write_file st a) as [r|]; [|discriminate]. cbn [bind] in Ha. apply ok_inj in Ha as <-.
  rewrite (IH r eq_refl Hb). cbn [bind]. now rewrite <- app_assoc.
Qed.
Lemma read_line inc st st' s hdr rest t : announceable st -> line_writable st s -> same_numbers st st' s -> to_gerber st s = Ok t ->
  exists hdr', parse_cmds inc st' [] (fst (split_loop [] hdr (t ++ nl :: rest))) =
    do o <- parse_cmds inc (after st' s) [] (fst (split_loop [] hdr' rest)); let '(l', st'') := o in Ok (s :: l', st'').
Proof.
  intros A W N E. destruct (step_line inc st st' s A W N) as (t' & E' & P & C). rewrite E in E'. apply ok_inj in E' as <-.
  destruct (split_command t hdr C) as [hdr' Hd]. exists hdr'. rewrite Hd. cbn [fst]. now rewrite (parse_one_cmd _ _ _ _ _ _ C P).
Qed.
(** Entries that can be written exactly. *)
Definition entry_exact (e : entry) : Prop :=
  (10 <= ecode e)%Z /\ match e with EKey k _ => key_exact k | EMac h _ g => good_name h /\ gr_prims g <> [] /\ Forall prim_writable (gr_prims g) end.
Lemma good_not_C h : good_name h -> forall r, h <> T "C" ++ r.
Proof. intros (r & -> & _) r' E. discriminate. Qed.
Lemma write_entries st E : Forall entry_exact E -> exists t, write_file st (flat_map estmts E) = Ok t.
Proof.
  induction 1 as [|e E X F [t IH]]; [now exists []|]. cbn [flat_map].
  assert (G : exists te, write_file st (estmts e) = Ok te).
  { destruct e as [k d|h d g]; cbn [estmts macro_stmts write_file].
    - destruct (definition_is_SAD k d) as (n & m & ->). eexists. reflexivity.
    - eexists. reflexivity. }
  destruct G as [te G]. eexists. apply write_app; eassumption.
Qed.
Lemma read_entries inc st st' l st'' rest E : announceable st -> Forall entry_exact E ->
  (forall hdr, parse_cmds inc st' [] (fst (split_loop [] hdr rest)) = Ok (l, st'')) ->
  forall t, write_file st (flat_map estmts E) = Ok t ->
  exists L, Forall2 eread E L /\ forall hdr, parse_cmds inc st' [] (fst (split_loop [] hdr (t ++ rest))) = Ok (List.concat L ++ l, st'').
Proof.
  intros A F R. induction F as [|e E X F IH]; intros t W.
  - apply ok_inj in W as <-. exists []. split; [constructor|exact R].
  - destruct (write_entries st E F) as [tE WE]. destruct (IH tE WE) as (L & HL & P). destruct X as [C X].
    assert (NL : forall h, fst (split_loop [] false (nl :: h)) = fst (split_loop [] false h)).
    { intro h. transitivity (fst (let (ys, t) := split_loop [] false h in (ys, t))); [reflexivity|]. destruct (split_loop [] false h); reflexivity. }
    destruct e as [k d|h d g]; cbn [ecode] in C.
    + pose proof (key_writable st k d C X) as WK. cbn [flat_map estmts app] in W. cbn [write_file] in W.
      destruct (to_gerber st (definition_stmt k d)) as [tk|] eqn:Ek; [|discriminate]. cbn [bind] in W. rewrite WE in W. cbn [bind] in W. apply ok_inj in W as <-.
      exists ([definition_stmt k d] :: L). split; [constructor; [reflexivity|exact HL]|]. intro hdr.
      replace ((tk ++ nl :: tE) ++ rest) with (tk ++ nl :: tE ++ rest) by (rewrite <- app_assoc; reflexivity).
      assert (SN : same_numbers st st' (definition_stmt k d)) by (right; destruct (definition_is_SAD k d) as (n & m & ->); exact I).
      destruct (read_line inc st st' (definition_stmt k d) hdr (tE ++ rest) tk A (LW_stmt _ _ WK) SN Ek) as [hdr' ->].
      assert (AF : after st' (definition_stmt k d) = st') by (destruct (definition_is_SAD k d) as (n & m & ->); reflexivity). rewrite AF, P. reflexivity.
    + destruct X as (GN & NE & WR). set (rest' := nl :: T "%ADD" ++ show_int d ++ h ++ T "*%" ++ nl :: tE ++ rest).
      destruct (macro_statement inc st' h (gr_prims g) rest' (good_macro_name h GN) NE WR) as (m & i & RM & B & PM).
      exists ([SAM h m []; SAD d h [[]]] :: L). split; [constructor; [exists m, i; auto|exact HL]|]. intro hdr.
      cbn [flat_map estmts macro_stmts app] in W. cbn [write_file to_gerber] in W. cbn [bind] in W. rewrite WE in W. cbn [bind] in W. apply ok_inj in W as <-.
      assert (TE : (T "%AM" ++ h ++ T "*" ++ List.concat (map prim_to_gerber (gr_prims g)) ++ T "%") = am_to_gerber h (gr_prims g)) by reflexivity.
      assert (TA : to_gerber st (SAD d h [[]]) = Ok (T "%ADD" ++ show_int d ++ h ++ T "*%")) by reflexivity.
      match goal with |- parse_cmds _ _ _ (fst (split_loop [] hdr ?x)) = _ => replace x with (am_to_gerber h (gr_prims g) ++ rest') end.
      2:{ rewrite <- TE. unfold rest'. cbn [any_mods app]. repeat (rewrite <- app_assoc; cbn [app]). reflexivity. }
      rewrite PM. unfold rest'. rewrite NL.
      assert (WA : writable st (SAD d h [[]])) by (apply W_define_macro; [lia|now apply good_macro_name|constructor|intros _; now apply good_not_C]).
      replace (T "%ADD" ++ show_int d ++ h ++ T "*%" ++ nl :: tE ++ rest) with ((T "%ADD" ++ show_int d ++ h ++ T "*%") ++ nl :: tE ++ rest) by (repeat (rewrite <- app_assoc; cbn [app]); reflexivity).
      destruct (read_line inc st st' (SAD d h [[]]) false (tE ++ rest) _ A (LW_stmt _ _ WA) (or_intror I) TA) as [hdr' ->].
      cbn [after]. rewrite P. reflexivity.
Qed.

(** ** Book-keeping with macros *)
Section Book.
Variable digits : part -> text.
Variable st : pset.
Variable G : list group.
Record laid (c : ctx) (t : macro_table) (E : list entry) : Prop := {
  l_header : c_header c = base false st ++ flat_map estmts E;
  l_table : c_table c = flat_map ekey E;
  l_codes : NoDup (map ecode E);
  l_range : Forall (fun e => (10 <= ecode e < c_next c)%Z) E;
  l_next : (10 <= c_next c)%Z;
  l_used : forall d x, In (SAp d x) (c_body c) -> In d (map ecode E);
  l_macros : forall h l d g, In (h, l) t -> In (d, g) l -> In (EMac h d g) E;
  l_named : forall h d g, In (EMac h d g) E -> h = hash_amacro digits g /\ In g G }.
Lemma new_laid : laid (new_context st) [] [].
Proof. split; cbn; auto; try constructor; try lia; try contradiction. Qed.
Definition key_entries (l : list (key * Z)) : list entry := map (fun x => EKey (fst x) (snd x)) l.
Lemma key_entries_stmts l : flat_map estmts (key_entries l) = defs l.
Proof. unfold key_entries, defs. induction l as [|x l IH]; [reflexivity|]. cbn [map flat_map]. now rewrite IH. Qed.
Lemma key_entries_table l : flat_map ekey (key_entries l) = l.
Proof. unfold key_entries. induction l as [|[k d] l IH]; [reflexivity|]. cbn [map flat_map]. now rewrite IH. Qed.
Lemma key_entries_codes l : map ecode (key_entries l) = map snd l.
Proof. unfold key_entries. rewrite map_map. reflexivity. Qed.
Lemma number_range n ks : forall d, In d (map snd (number n ks)) -> (n <= d < n + Z.of_nat (List.length ks))%Z.
Proof.
  revert n. induction ks as [|k ks IH]; intros n d I; [contradiction|]. cbn [number map snd] in I. destruct I as [<-|I]; [cbn [List.length]; lia|].
  apply IH in I. cbn [List.length]. lia.
Qed.
Lemma number_nodup n ks : NoDup (map snd (number n ks)).
Proof. revert n. induction ks as [|k ks IH]; intro n; [constructor|]. cbn. constructor; [|apply IH]. intro I. apply number_range in I. lia. Qed.
Lemma NoDup_two {A} (a b : list A) : NoDup a -> NoDup b -> (forall x, In x a -> ~ In x b) -> NoDup (a ++ b).
Proof.
  induction 1 as [|x a N D IH]; intros B H; [exact B|]. cbn. constructor; [|apply IH; [exact B|intros y I; apply H; now right]].
  intro I. apply in_app_or in I as [I|I]; [contradiction|]. now apply (H x (or_introl eq_refl)).
Qed.
Lemma laid_plain c c' t E : laid c t E -> grown c c' -> exists E', laid c' t (E ++ E').
Proof.
  intros [L1 L2 L3 L4 L5 L6 L7 L8] (ks & bs & T & H & N & B & U). exists (key_entries (number (c_next c) ks)). rewrite Forall_forall in L4.
  assert (C : forall d, In d (map snd (flat_map ekey E)) -> In d (map ecode E)).
  { clear. induction E as [|e E IH]; intros d I; [contradiction|]. cbn [flat_map] in I. rewrite map_app in I. apply in_app_or in I as [I|I]; [|right; now apply IH].
    destruct e; cbn in I; [destruct I as [<-|[]]; now left|contradiction]. }
  split.
  - rewrite H, L1, flat_map_app, key_entries_stmts. now rewrite app_assoc.
  - now rewrite T, L2, flat_map_app, key_entries_table.
  - rewrite map_app, key_entries_codes. apply NoDup_two; [exact L3|apply number_nodup|]. intros d I J. apply number_range in J. apply in_map_iff in I as (e & <- & I). specialize (L4 _ I). lia.
  - rewrite Forall_forall. intros e I. apply in_app_or in I as [I|I]; [specialize (L4 _ I); lia|].
    assert (J : In (ecode e) (map snd (number (c_next c) ks))) by (rewrite <- key_entries_codes; now apply in_map). apply number_range in J. lia.
  - lia.
  - intros d x I. rewrite map_app. apply in_or_app. rewrite B in I. apply in_app_or in I as [I|I]; [left; eauto|].
    specialize (U _ _ I). rewrite T, map_app in U. apply in_app_or in U as [U|U]; [left|right; now rewrite key_entries_codes]. apply C. now rewrite <- L2.
  - intros h l d g I J. apply in_or_app. left. eauto.
  - intros h d g I. apply in_app_or in I as [I|I]; [eauto|]. apply in_map_iff in I as (x & X & _). discriminate.
Qed.
Lemma laid_body c c' t E bs : laid c t E -> c_header c' = c_header c -> c_table c' = c_table c -> c_next c' = c_next c -> c_body c' = c_body c ++ bs ->
  (forall d x, In (SAp d x) bs -> In d (map ecode E)) -> laid c' t E.
Proof.
  intros [L1 L2 L3 L4 L5 L6 L7 L8] H T N B U. split; rewrite ?H, ?T, ?N; auto. intros d x I. rewrite B in I. apply in_app_or in I as [I|I]; eauto.
Qed.
Lemma tget_in {A} h (t : list (text * A)) l : GerberEval.tget h t = Some l -> In (h, l) t.
Proof.
  induction t as [|[h' l'] t IH]; cbn; [discriminate|]. destruct (teq h' h) eqn:Q; [|auto]. apply teq_true in Q as ->. intros [= ->]. now left.
Qed.
Lemma add_macro_in h m t h' l d g : In (h', l) (add_macro h m t) -> In (d, g) l -> (h' = h /\ m = (d, g)) \/ exists l', In (h', l') t /\ In (d, g) l'.
Proof.
  induction t as [|[k r] t IH]; cbn [add_macro]; intros I J.
  - destruct I as [[= <- <-]|[]]. destruct J as [J|[]]. left. auto.
  - destruct (teq k h) eqn:Q.
    + apply teq_true in Q as ->. destruct I as [[= <- <-]|I]; [|right; exists l; split; [now right|exact J]].
      apply in_app_or in J as [J|[J|[]]]; [right; exists r; split; [now left|exact J]|left; auto].
    + destruct I as [[= <- <-]|I]; [right; exists r; split; [now left|exact J]|]. destruct (IH I J) as [X|(l' & X & Y)]; [now left|]. right. exists l'. split; [now right|exact Y].
Qed.
Definition same_state (c c' : ctx) : Prop :=
  c_body c' = c_body c /\ c_pol c' = c_pol c /\ c_pos c' = c_pos c /\ c_func c' = c_func c /\ c_quad c' = c_quad c /\ c_dcode c' = c_dcode c /\ c_table c' = c_table c.
Lemma get_laid g c t E : laid c t E -> In g G -> let '(d, (c', t')) := get_amacro digits g (c, t) in
  exists E', laid c' t' (E ++ E') /\ same_state c c' /\ exists h g', In (EMac h d g') (E ++ E') /\ (g' = g \/ same_compared g' g).
Proof.
  intros L IG. unfold get_amacro. destruct (match GerberEval.tget (hash_amacro digits g) t with Some l => known_macro g l | None => None end) as [d|] eqn:K.
  - exists []. rewrite app_nil_r. split; [exact L|]. split; [repeat split|]. destruct (GerberEval.tget (hash_amacro digits g) t) as [l|] eqn:Q; [|discriminate].
    unfold known_macro in K. destruct (find _ l) as [[d' g']|] eqn:F; [|discriminate]. injection K as ->. apply find_some in F as [I Q2]. cbn [snd] in Q2.
    exists (hash_amacro digits g), g'. split; [exact (l_macros _ _ _ L _ _ _ _ (tget_in _ _ _ Q) I)|]. right. apply group_iff in Q2. exact Q2.
  - exists [EMac (hash_amacro digits g) (c_next c) g]. split; [|split; [repeat split|]; exists (hash_amacro digits g), g; split; [apply in_or_app; right; now left|now left]].
    destruct L as [L1 L2 L3 L4 L5 L6 L7 L8]. rewrite Forall_forall in L4. split; cbn [c_header c_table c_next c_body].
    + rewrite flat_map_app, L1. cbn [flat_map estmts]. now rewrite app_nil_r, app_assoc.
    + rewrite flat_map_app, L2. cbn. now rewrite app_nil_r.
    + rewrite map_app. apply NoDup_app_snoc; [exact L3|]. intro I. apply in_map_iff in I as (e & X & I). specialize (L4 _ I). cbn in X. lia.
    + apply Forall_app. split; [apply Forall_forall; intros e I; specialize (L4 _ I); lia|]. constructor; [cbn; lia|constructor].
    + lia.
    + intros d x I. rewrite map_app. apply in_or_app. left. eauto.
    + intros h l d g' I J. apply in_or_app. destruct (add_macro_in _ _ _ _ _ _ _ I J) as [(-> & X)|(l' & X & Y)]; [right; injection X as <- <-; now left|left; eauto].
    + intros h d g' I. apply in_app_or in I as [I|[I|[]]]; [eauto|]. injection I as <- <- <-. auto.
Qed.
Lemma flash_parts o p pol d c : let c' := render_flash o p pol d c in
  c_header c' = c_header c /\ c_table c' = c_table c /\ c_next c' = c_next c /\ exists bs, c_body c' = c_body c ++ bs /\ forall d' x, In (SAp d' x) bs -> d' = d.
Proof.
  cbn zeta. unfold render_flash.
  assert (P : forall c1, c_header c1 = c_header c /\ c_table c1 = c_table c /\ c_next c1 = c_next c /\ (exists bs, c_body c1 = c_body c ++ bs /\ forall d' x, In (SAp d' x) bs -> d' = d) ->
     forall l, forallb (fun s => negb (is_select s) || match s with SAp d' _ => (d' =? d)%Z | _ => false end) l = true -> forall c2, c_header c2 = c_header c1 -> c_table c2 = c_table c1 -> c_next c2 = c_next c1 -> c_body c2 = c_body c1 ++ l ->
     c_header c2 = c_header c /\ c_table c2 = c_table c /\ c_next c2 = c_next c /\ (exists bs, c_body c2 = c_body c ++ bs /\ forall d' x, In (SAp d' x) bs -> d' = d)).
  { intros c1 (H & T & N & bs & B & U) l F c2 H2 T2 N2 B2. rewrite H2, T2, N2, B2, B. repeat (split; [assumption|]). exists (bs ++ l). split; [now rewrite app_assoc|].
    intros d' x I. apply in_app_or in I as [I|I]; [eauto|]. rewrite forallb_forall in F. specialize (F _ I). cbn in F. now apply Z.eqb_eq. }
  assert (P0 : c_header c = c_header c /\ c_table c = c_table c /\ c_next c = c_next c /\ (exists bs, c_body c = c_body c ++ bs /\ forall d' x, In (SAp d' x) bs -> d' = d)).
  { repeat split. exists []. rewrite app_nil_r. split; [reflexivity|contradiction]. }
  assert (P1 : let c1 := level_polarity pol (Some Dark) c in c_header c1 = c_header c /\ c_table c1 = c_table c /\ c_next c1 = c_next c /\ (exists bs, c_body c1 = c_body c ++ bs /\ forall d' x, In (SAp d' x) bs -> d' = d)).
  { cbn zeta. unfold level_polarity. set (q := match pol with Some _ => pol | None => Some Dark end). destruct (pol_eq q (c_pol c)); [exact P0|].
    apply (P c P0 [SLP (match q with Some p => p | None => Dark end)] eq_refl); reflexivity. }
  cbn zeta in P1. set (c1 := level_polarity pol (Some Dark) c) in *.
  assert (P2 : let c2 := select d c1 in c_header c2 = c_header c /\ c_table c2 = c_table c /\ c_next c2 = c_next c /\ (exists bs, c_body c2 = c_body c ++ bs /\ forall d' x, In (SAp d' x) bs -> d' = d)).
  { cbn zeta. assert (P3 := P c1 P1 [SAp d false]). cbn [forallb is_select negb orb] in P3. rewrite Z.eqb_refl in P3. specialize (P3 eq_refl (with_dcode (Some d) (emit [SAp d false] c1)) eq_refl eq_refl eq_refl eq_refl).
    unfold select. destruct (c_dcode c1); [destruct (d =? z)%Z; [exact P1|]|]; exact P3. }
  cbn zeta in P2. set (c2 := select d c1) in *. destruct (condensed_flash o).
  - eapply (P c2 P2); try reflexivity; reflexivity.
  - eapply (P c2 P2); try reflexivity; reflexivity.
Qed.
Definition commented (cm : option text) (c : ctx) : ctx := match cm with Some t => emit [SCom t] c | None => c end.
Lemma laid_comment cm c t E : laid c t E -> laid (commented cm c) t E.
Proof.
  intro L. destruct cm as [x|]; [|exact L]. eapply (laid_body c _ t E [SCom x]); try reflexivity; [exact L|]. intros d y [I|[]]; discriminate.
Qed.
(** What a step does. *)
Definition stepped (o : options) (x : gitem) (c c' : ctx) (E : list entry) : Prop :=
  match x with
  | Plain y => render o y c = Ok c'
  | Macro cm g => exists c1 d h g', same_state (commented cm c) c1 /\ c' = render_flash o (gr_position g) (gr_polarity g) d c1 /\ In (EMac h d g') E /\ (g' = g \/ same_compared g' g)
  end.
Lemma step_laid o x c t c' t' E : laid c t E -> incl (groups [x]) G -> render_one digits o x (c, t) = Ok (c', t') ->
  exists E', laid c' t' (E ++ E') /\ stepped o x c c' (E ++ E').
Proof.
  intros L I H. destruct x as [y|cm g]; cbn [render_one fst snd] in H.
  - destruct (render o y c) as [c1|] eqn:R; [|discriminate]. cbn [bind] in H. apply ok_inj in H. injection H as <- <-.
    destruct (laid_plain c c1 t E L (grown_render _ _ _ _ R)) as [E' L']. exists E'. auto.
  - fold (commented cm c) in H. pose proof (get_laid g (commented cm c) t E (laid_comment cm _ _ _ L) (I g (or_introl eq_refl))) as GL.
    destruct (get_amacro digits g (commented cm c, t)) as [d [c2 t2]]. destruct GL as (E' & L' & SS & h & g' & IE & C). cbn [fst snd] in H. apply ok_inj in H. injection H as <- <-.
    exists E'. pose proof (flash_parts o (gr_position g) (gr_polarity g) d c2) as FP. cbn zeta in FP. destruct FP as (P1 & P2 & P3 & bs & P4 & P5).
    split; [|exists c2, d, h, g'; auto]. eapply laid_body; [exact L'|exact P1|exact P2|exact P3|exact P4|].
    intros d' z J. apply P5 in J. subst d'. apply in_map_iff. exists (EMac h d g'). auto.
Qed.
(** All the steps. *)
Inductive steps (o : options) : list gitem -> ctx -> list entry -> ctx -> list entry -> Prop :=
| Steps_none c E : steps o [] c E c E
| Steps_one x items c E c1 E1 c' E' : incl (groups [x]) G -> stepped o x c c1 (E ++ E1) -> (exists t, laid c1 t (E ++ E1)) -> steps o items c1 (E ++ E1) c' E' -> steps o (x :: items) c E c' E'.
Lemma list_laid o items : incl (groups items) G -> forall c t c' t' E, laid c t E -> render_list digits o items (c, t) = Ok (c', t') -> exists E', laid c' t' E' /\ steps o items c E c' E'.
Proof.
  induction items as [|x items IH]; intros I c t c' t' E L H; cbn [render_list] in H.
  - apply ok_inj in H. injection H as <- <-. exists E. split; [exact L|constructor].
  - destruct (render_one digits o x (c, t)) as [[c1 t1]|] eqn:R; [|discriminate]. cbn [bind] in H.
    assert (IX : incl (groups [x]) G /\ incl (groups items) G).
    { change (groups (x :: items)) with (groups ([x] ++ items)) in I. unfold groups in *. rewrite flat_map_app in I. split; (eapply incl_tran; [|exact I]); [apply incl_appl|apply incl_appr]; apply incl_refl. }
    destruct IX as [IX II]. destruct (step_laid o x c t c1 t1 E L IX R) as (E1 & L1 & S). destruct (IH II c1 t1 c' t' _ L1 H) as (E2 & L2 & S2).
    exists E2. split; [exact L2|]. econstructor; eauto.
Qed.
Lemma steps_incl o items c E c' E' : steps o items c E c' E' -> incl E E'.
Proof. induction 1 as [|x items c E c1 E1 c' E' I S LD R IH]; [apply incl_refl|]. eapply incl_tran; [|exact IH]. apply incl_appl, incl_refl. Qed.
End Book.

(** ** The body *)
Section CleanG.
Variable pg : Qc -> Prop.
Variable pc : text -> Prop.
Variable kx : key -> Prop.
Definition gitem_g (x : gitem) : Prop :=
  match x with Plain x => item_g pg pc kx x | Macro cm g => (forall t, cm = Some t -> pc t) /\ pgp pg (gr_position g) end.
Lemma clean_flash o p pol d c : clean pg pc kx c -> pgp pg p -> clean pg pc kx (render_flash o p pol d c).
Proof.
  intros C1 P. unfold render_flash.
  set (c2 := select d (level_polarity pol (Some Dark) c)). assert (C2 : clean pg pc kx c2) by now apply clean_select, clean_polarity.
  assert (O3 : ok_stmt pg pc (coord_stmt None (simplify_point p c2) "D03")) by (apply ok_coord; [exact Logic.I|cbn; auto 10|exact P]).
  assert (O2 : ok_stmt pg pc (coord_stmt None (simplify_point p c2) "D02")) by (apply ok_coord; [exact Logic.I|cbn; auto 10|exact P]).
  eapply clean_same with (c := if condensed_flash o then _ else _); [|reflexivity..].
  destruct (condensed_flash o); [now apply clean_one|]. eapply clean_emit; try reflexivity; [exact C2|]. constructor; [exact O2|]. constructor; [|constructor].
  cbn. repeat (split; [auto 10|]). discriminate.
Qed.
Lemma clean_macro o cm g d c c1 : clean pg pc kx c -> gitem_g (Macro cm g) -> same_state (commented cm c) c1 ->
  clean pg pc kx (render_flash o (gr_position g) (gr_polarity g) d c1).
Proof.
  intros C [CM P] (B & _ & _ & _ & _ & _ & T). apply clean_flash; [|exact P].
  assert (C0 : clean pg pc kx (commented cm c)) by (destruct cm as [t|]; [apply clean_one; [exact C|exact (CM t eq_refl)]|exact C]).
  eapply clean_same; [exact C0|exact B|exact T].
Qed.
End CleanG.
Lemma any_gitem x : gitem_g (fun _ => True) (fun _ => True) (fun _ => True) x.
Proof. destruct x as [x|cm g]; cbn; [exact (Forall_inv (everything_g [x]))|unfold pgp; auto]. Qed.
Lemma clean_step (pg : Qc -> Prop) (pc : text -> Prop) (kx : key -> Prop) o x c c' E : gitem_g pg pc kx x -> stepped o x c c' E -> clean pg pc kx c -> clean pg pc kx c'.
Proof.
  intros X S C. destruct x as [y|cm g]; [exact (clean_render pg pc kx o y c c' C X S)|]. destruct S as (c2 & d & h & g' & SS & -> & _). eapply clean_macro; eassumption.
Qed.
Lemma clean_list (pg : Qc -> Prop) (pc : text -> Prop) (kx : key -> Prop) digits st G o items c E c' E' : steps digits st G o items c E c' E' ->
  Forall (gitem_g pg pc kx) items -> clean pg pc kx c -> clean pg pc kx c'.
Proof.
  induction 1 as [|x items c E c1 E1 c' E' I S LD R IH]; intros F C; [exact C|]. inversion F; subst. apply IH; [assumption|]. eapply clean_step; eassumption.
Qed.
Lemma ok_aperture pg pc l : Forall (ok_stmt pg pc) l -> forall past n, aperture_of n (rev l ++ past) = aperture_of n past.
Proof.
  induction 1 as [|s l S L IH]; intros past n; [reflexivity|]. cbn [rev]. rewrite <- app_assoc, IH. destruct s; try reflexivity; contradiction.
Qed.
Section Body.
Variable fc : centre_fun.
Variable digits : part -> text.
Variable st : pset.
Variable G : list group.
Variable Ef : list entry.
Variable L : list (list stmt).
Hypothesis HL : Forall2 eread Ef L.
Hypothesis HN : NoDup (map ecode Ef).
Hypothesis HG : Forall named Ef.
Hypothesis TA : told_apart G.
Hypothesis GE : forall h d g, In (EMac h d g) Ef -> In g G.
Let u := p_units st.
Let F := flat_map ekey Ef.
Notation sync := (sync fc F u).
Notation adv := (adv fc).
Lemma body_step o x c c' E past : (exists t, laid digits st G c' t E) -> stepped o x c c' E -> clean (fun _ => True) (fun _ => True) (fun _ => True) c -> incl (groups [x]) G -> item_supported fc o x ->
  incl E Ef -> sync Off [] past c -> (forall n, aperture_of n past = aperture_of n (rev (head st L))) ->
  exists m past', adv past c c' [m] past' /\ sync Off [] past' c' /\ item_reads u x m /\ (forall n, aperture_of n past' = aperture_of n (rev (head st L))).
Proof.
  intros [t' L'] ST CL IX SU IE S AP.
  pose proof (clean_step _ _ _ o x c c' E (any_gitem x) ST CL) as CL'.
  assert (KEEP : forall ms past', adv past c c' ms past' -> forall n, aperture_of n past' = aperture_of n (rev (head st L))).
  { intros ms past' (l & B & -> & _) n. destruct CL' as [CB _]. rewrite B in CB. apply Forall_app in CB as [_ CB]. rewrite (ok_aperture _ _ l CB). apply AP. }
  destruct x as [y|cm g].
  - assert (IT : incl (c_table c') F).
    { rewrite (l_table _ _ _ _ _ _ L'). unfold F. intros k I. apply in_flat_map in I as (e & I & J). apply in_flat_map. exists e. auto. }
    destruct (render_sync fc F u o past c y c' S SU ST IT) as (m & past' & A & S' & M). exists m, past'. repeat (split; [assumption|]).
    apply KEEP with [m]; exact A.
  - destruct ST as (c1 & d & h & g' & SS & -> & IM & C).
    assert (G0 : exists p0, adv past c (commented cm c) [] p0 /\ sync Off [] p0 (commented cm c)).
    { destruct cm as [z|]; [|exists past; split; [now apply adv_refl|exact S]].
      apply (set_step fc F u Off [] past c _ (SCom z) S); try reflexivity; [exact (s_polarity _ _ _ _ _ _ _ S)|exact (s_quadrant _ _ _ _ _ _ _ S)|exact (s_selection _ _ _ _ _ _ _ S)]. }
    destruct G0 as (p0 & A0 & S0). destruct SS as (B & P1 & P2 & P3 & P4 & P5 & P6).
    assert (S1 : sync Off [] p0 c1) by (eapply sync_weaken; [exact S0|exact P1|exact P2| |exact P4|exact P5]; rewrite P3; exact (s_motion _ _ _ _ _ _ _ S0)).
    assert (A1 : adv past c c1 [] p0) by (destruct A0 as (l & B0 & X & Y); exists l; split; [now rewrite B|auto]).
    assert (K0 : forall n, aperture_of n p0 = aperture_of n (rev (head st L))).
    { destruct A0 as (l & B0 & -> & _). intro n. rewrite <- AP.
      assert (CC : clean (fun _ => True) (fun _ => True) (fun _ => True) (commented cm c)) by (destruct cm; [apply clean_one; [exact CL|exact Logic.I]|exact CL]).
      destruct CC as [CC _]. rewrite B0 in CC. apply Forall_app in CC as [_ CC]. apply (ok_aperture _ _ l CC). }
    destruct (head_macro st Ef L HL HN HG h d g' (IE _ IM)) as (k & K1 & K2). rewrite <- K0 in K2.
    destruct (flash_any fc F u o p0 c1 (gr_position g) (gr_polarity g) d (ShMacro k) S1 K2) as (p2 & A2 & S2).
    pose proof (adv_trans _ _ _ _ _ _ _ _ _ A1 A2) as A. cbn [app] in A. eexists _, p2. split; [exact A|]. split; [exact S2|]. split.
    + cbn. exists k. split; [|reflexivity]. rewrite K1. f_equal. destruct C as [->|C]; [reflexivity|]. apply TA; [exact (GE _ _ _ (IE _ IM))|exact (IX g (or_introl eq_refl))|exact C].
    + eapply KEEP; exact A.
Qed.
Lemma body_all o items c E c' E' : steps digits st G o items c E c' E' -> incl E' Ef -> Forall (item_supported fc o) items ->
  clean (fun _ => True) (fun _ => True) (fun _ => True) c -> forall past, sync Off [] past c -> (forall n, aperture_of n past = aperture_of n (rev (head st L))) ->
  exists ms past', adv past c c' ms past' /\ Forall2 (item_reads u) items ms.
Proof.
  induction 1 as [c E|x items c E c1 E1 c' E' I S LD R IH]; intros IE SU CL past SY AP.
  - exists [], past. split; [now apply adv_refl|constructor].
  - inversion SU as [|? ? SX SI]; subst. pose proof (incl_tran (steps_incl _ _ _ _ _ _ _ _ _ R) IE) as IE1.
    destruct (body_step o x c c1 (E ++ E1) past LD S CL I SX IE1 SY AP) as (m & p1 & A1 & S1 & M1 & K1).
    destruct (IH IE SI (clean_step _ _ _ o x c c1 _ (any_gitem x) S CL) p1 S1 K1) as (ms & p2 & A2 & M2).
    exists (m :: ms), p2. split; [exact (adv_trans _ _ _ _ _ _ _ _ _ A1 A2)|now constructor].
Qed.
End Body.

(** ** The whole file *)
Lemma gitems_ok fc digits o items : Forall (item_supported fc o) items -> forall c, exists c', render_list digits o items c = Ok c'.
Proof.
  induction 1 as [|x items X F IH]; intros [c t]; [now exists (c, t)|]. cbn [render_list].
  assert (R : exists c1, render_one digits o x (c, t) = Ok c1).
  { destruct x as [y|cm g]; cbn [render_one fst snd].
    - destruct (render_ok fc o y c X) as [c1 ->]. eexists. reflexivity.
    - destruct (get_amacro digits g (match cm with Some t => emit [SCom t] c | None => c end, t)) as [d c2]. eexists. reflexivity. }
  destruct R as [c1 ->]. cbn [bind]. apply IH.
Qed.
Lemma in_groups items g : In g (groups items) -> exists cm, In (Macro cm g) items.
Proof. unfold groups. intro I. apply in_flat_map in I as ([y|cm g'] & J & K); [contradiction|]. destruct K as [->|[]]. eauto. Qed.
Lemma gitem_exact_g st x : gitem_exact st x -> gitem_g (on_grid st) plain_comment key_exact x.
Proof. destruct x as [y|cm g]; [apply item_exact_g|]. intros [C P]. split; [exact C|exact P]. Qed.
Lemma laid_body_writable digits st G c t E : laid digits st G c t E -> Forall (ok_stmt (on_grid st) plain_comment) (c_body c) -> Forall (writable st) (c_body c).
Proof.
  intros L F. rewrite Forall_forall in *. intros s I. specialize (F s I). destruct s; cbn [ok_stmt] in F; try contradiction.
  all: try (destruct F as (F1 & F2 & F3 & F4 & F5 & F6 & F7); now apply W_coord).
  all: try (constructor; assumption).
  all: try (now constructor).
  subst. apply W_aperture. pose proof (l_used _ _ _ _ _ _ L _ _ I) as U. apply in_map_iff in U as (e & <- & U).
  pose proof (l_range _ _ _ _ _ _ L) as R. rewrite Forall_forall in R. specialize (R _ U). lia.
Qed.
Lemma after_plain pg pc l : Forall (ok_stmt pg pc) l -> forall s, after_all s (l ++ [SEof]) = s.
Proof. induction 1 as [|x l X F IH]; intro s; [reflexivity|]. cbn [app]. unfold after_all in *. cbn [fold_left]. rewrite IH. destruct x; try reflexivity; contradiction. Qed.
Lemma shows_lemma fc digits o st items : announceable st -> name_digits digits -> Forall (item_supported fc o) items -> Forall (gitem_exact st) items ->
  told_apart (groups items) -> file_shows fc digits o st items.
Proof.
  intros A ND SU EX TA. destruct (gitems_ok fc digits o items SU (new_renderer st)) as [[c t] R]. unfold new_renderer in R.
  destruct (list_laid digits st (groups items) o items (incl_refl _) _ _ _ _ _ (new_laid digits st (groups items)) R) as (E & LD & ST).
  assert (CL : clean (on_grid st) plain_comment key_exact c).
  { eapply (clean_list _ _ _ _ _ _ _ _ _ _ _ _ ST); [|split; constructor]. eapply Forall_impl; [|exact EX]. apply gitem_exact_g. }
  destruct CL as [CB CT].
  assert (NM : forall h d g, In (EMac h d g) E -> good_name h /\ gr_prims g <> [] /\ Forall prim_writable (gr_prims g)).
  { intros h d g I. destruct (l_named _ _ _ _ _ _ LD h d g I) as [-> J]. apply in_groups in J as [cm J]. rewrite Forall_forall in SU. specialize (SU _ J). cbn in SU.
    destruct SU as (S1 & S2 & S3). split; [now apply hash_named|]. auto. }
  assert (EE : Forall entry_exact E).
  { pose proof (l_range _ _ _ _ _ _ LD) as RG. rewrite Forall_forall in *. intros e I. split; [specialize (RG _ I); lia|]. destruct e as [k d|h d g]; [|now apply (NM h d g)].
    apply (CT (k, d)). rewrite (l_table _ _ _ _ _ _ LD). apply in_flat_map. exists (EKey k d). split; [exact I|now left]. }
  assert (NE : Forall named E) by (rewrite Forall_forall; intros [k d|h d g] I; [exact Logic.I|now destruct (NM h d g I)]).
  destruct (write_entries st E EE) as [tE WE].
  assert (WB : Forall (line_writable st) (c_body c ++ [SEof])).
  { eapply Forall_impl; [apply LW_stmt|]. apply Forall_app. split; [now apply (laid_body_writable _ _ _ _ _ _ LD)|repeat constructor]. }
  destruct (write_depicts no_files st A _ WB) as (tB & EB & _).
  assert (WF : writable st (SFS (p_zs st) (p_abs st) (p_fmt st))) by apply W_format.
  assert (WM : writable st (SMO true (p_units st))) by apply W_units.
  destruct (step_line (fun _ _ => Err IOError) st st _ A (LW_stmt _ _ WF) (or_intror Logic.I)) as (tF & EF & _).
  destruct (step_line (fun _ _ => Err IOError) st st _ A (LW_stmt _ _ WM) (or_intror Logic.I)) as (tM & EM & _).
  exists (c, t), (tF ++ nl :: tM ++ nl :: tE ++ tB). split; [exact R|]. split.
  { unfold dump, statements. cbn [fst]. rewrite (l_header _ _ _ _ _ _ LD). rewrite <- app_assoc. cbn [base app write_file]. rewrite EF. cbn [bind].
    change (to_gerber st (SMO false (p_units st))) with (to_gerber st (SMO true (p_units st))). rewrite EM. cbn [bind]. rewrite (write_app st _ _ _ _ WE EB). reflexivity. }
  intro fs. destruct (write_depicts fs st A _ WB) as (tB' & EB' & DB). rewrite EB in EB'. apply ok_inj in EB' as <-. specialize (DB include_limit).
  set (st1 := after (after pset0 (SFS (p_zs st) (p_abs st) (p_fmt st))) (SMO true (p_units st))).
  assert (RD : GerberTextProofs.ready st st1 (c_body c ++ [SEof])) by (left; split; reflexivity).
  pose proof (fun hdr => eq_trans (parse_data_depicts fs st A _ _ _ DB st1 hdr RD) (f_equal (fun x => Ok (c_body c ++ [SEof], x)) (after_plain _ _ _ CB st1))) as PB.
  destruct (read_entries _ st st1 _ _ tB E A EE PB tE WE) as (L & HL & PE).
  set (l := base true st ++ List.concat L ++ c_body c ++ [SEof]).
  assert (P : parse_text fs (tF ++ nl :: tM ++ nl :: tE ++ tB) = Ok (l, st1)).
  { unfold parse_text. rewrite parse_data_eq. unfold split_commands.
    match goal with |- parse_cmds ?i _ _ _ = _ => destruct (read_line i st pset0 _ true (tM ++ nl :: tE ++ tB) tF A (LW_stmt _ _ WF) (or_intror Logic.I) EF) as [h1 H1] end. rewrite H1.
    match goal with |- bind (parse_cmds ?i _ _ _) _ = _ => destruct (read_line i st (after pset0 (SFS (p_zs st) (p_abs st) (p_fmt st))) _ h1 (tE ++ tB) tM A (LW_stmt _ _ WM) (or_intror Logic.I) EM) as [h2 H2] end. rewrite H2.
    fold st1. rewrite PE. reflexivity. }
  assert (SY := head_sync fc st E L (flat_map ekey E) HL (l_codes _ _ _ _ _ _ LD)).
  specialize (SY ltac:(intros k d I; apply in_flat_map in I as ([k' d'|h' d' g'] & I & J); [destruct J as [[= -> ->]|[]]; exact I|contradiction])).
  destruct (body_all fc digits st (groups items) E L HL (l_codes _ _ _ _ _ _ LD) NE TA (fun h d g I => proj2 (l_named _ _ _ _ _ _ LD h d g I)) o items _ _ _ _ ST (incl_refl _) SU
     ltac:(split; constructor) _ SY (fun _ => eq_refl)) as (ms & past' & (bd & EBD & EP & IM) & RM).
  cbn [new_context c_body app] in EBD.
  assert (D : definitions_ok [] l).
  { unfold l. cbn [base app definitions_ok]. split; [exact Logic.I|]. split; [exact Logic.I|]. apply (head_ok E L); [exact HL|exact NE|]. eapply body_ok. exact CB. }
  assert (IMG : image fc [] l = Some ms).
  { unfold l. rewrite app_assoc, EBD. fold (head st L). rewrite (image_app fc _ [] _ [] (ms ++ [])); [now rewrite app_nil_r|now apply head_image with E|].
    rewrite app_nil_r. apply image_app; [exact IM|reflexivity]. }
  destruct (evaluate_all fc g_init l) as [[gs l']|e] eqn:EV.
  - destruct (evaluate_image fc _ _ _ _ _ (inv_init fc) EV) as (_ & ms' & IM' & SH). rewrite IMG in IM'. injection IM' as <-.
    exists l, st1, gs, l', ms. split; [exact P|]. split; [reflexivity|]. split; [exact EV|]. split; [exact SH|exact RM].
  - destruct (evaluate_all_error fc _ _ _ _ (inv_init fc) D EV) as [_ N]. congruence.
Qed.
(** ** D-codes *)
Lemma entries_codes E : codes (flat_map estmts E) = map ecode E.
Proof.
  induction E as [|e E IH]; [reflexivity|]. cbn [flat_map map]. rewrite codes_app, IH. destruct e as [k d|h d g]; [|reflexivity].
  cbn [estmts ecode]. destruct (definition_is_SAD k d) as (n & m & ->). reflexivity.
Qed.
Lemma macro_codes digits o st items c : render_list digits o items (new_renderer st) = Ok c ->
  NoDup (codes (statements (fst c))) /\ Forall (fun d => (10 <= d)%Z) (codes (statements (fst c))) /\
  (forall before d x after, statements (fst c) = before ++ SAp d x :: after -> In d (codes before)).
Proof.
  destruct c as [c t]. cbn [fst]. intro R. unfold new_renderer in R.
  destruct (list_laid digits st (groups items) o items (incl_refl _) _ _ _ _ _ (new_laid digits st (groups items)) R) as (E & LD & ST).
  assert (CL : clean (fun _ => True) (fun _ => True) (fun _ => True) c).
  { eapply (clean_list _ _ _ _ _ _ _ _ _ _ _ _ ST); [|split; constructor]. apply Forall_forall. intros x _. apply any_gitem. }
  destruct CL as [CL _].
  assert (CB : codes (c_body c) = []).
  { clear - CL. induction CL as [|s l S L IH]; [reflexivity|]. cbn. unfold codes in IH. rewrite IH. destruct s; try reflexivity; contradiction. }
  assert (CH : codes (c_header c) = map ecode E) by (rewrite (l_header _ _ _ _ _ _ LD), codes_app, entries_codes; reflexivity).
  assert (CS : codes (statements c) = map ecode E) by (unfold statements; rewrite !codes_app, CB, CH; cbn; apply app_nil_r).
  rewrite CS. split; [exact (l_codes _ _ _ _ _ _ LD)|]. split; [apply Forall_map; eapply Forall_impl; [|exact (l_range _ _ _ _ _ _ LD)]; cbn; intros; lia|].
  intros before d x after Q.
  assert (HD : forall s, In s (c_header c) -> is_select s = false).
  { intros s I. rewrite (l_header _ _ _ _ _ _ LD) in I. apply in_app_or in I as [[<-|[<-|[]]]|I]; [reflexivity..|]. apply in_flat_map in I as ([k e|h e g] & _ & I).
    - destruct I as [<-|[]]. destruct k; reflexivity.
    - destruct I as [<-|[<-|[]]]; reflexivity. }
  assert (P : exists rest, before = c_header c ++ rest /\ c_body c ++ [SEof] = rest ++ SAp d x :: after).
  { unfold statements in Q. revert before Q. clear - HD. induction (c_header c) as [|s h IH]; intros before Q; [exists before; auto|].
    destruct before as [|s' before]; cbn in Q; injection Q as Q1 Q2.
    - specialize (HD s (or_introl eq_refl)). subst s. discriminate.
    - subst s'. destruct (IH (fun s I => HD s (or_intror I)) before Q2) as (rest & -> & R). exists rest. auto. }
  destruct P as (rest & -> & Q2). rewrite codes_app, CH. apply in_or_app. left. apply (l_used _ _ _ _ _ _ LD d x).
  assert (I : In (SAp d x) (c_body c ++ [SEof])) by (rewrite Q2; apply in_or_app; right; now left).
  apply in_app_or in I as [I|[I|[]]]; [exact I|discriminate].
Qed.

(** ** Macros that are written only once *)
Lemma nearly_translate o d p q : nearly_equal (translate d p) (add_point q (add_point o d)) = nearly_equal p (add_point q o).
Proof.
  unfold nearly_equal, translate, add_point. cbn [fst snd].
  replace (fst p + fst d - (fst q + (fst o + fst d))) with (fst p - (fst q + fst o)) by ring.
  replace (snd p + snd d - (snd q + (snd o + snd d))) with (snd p - (snd q + snd o)) by ring. reflexivity.
Qed.
Lemma all_equivalent_map {A} (f g : A -> A -> bool) (h : A -> A) l : (forall x y, In x l -> f (h x) y = g x y) -> forall k, all_equivalent f (map h l) k = all_equivalent g l k.
Proof. induction l as [|x l IH]; intros H [|y k]; try reflexivity. cbn. rewrite H by now left. rewrite IH; [reflexivity|]. intros a b I. apply H. now right. Qed.
Lemma part_translate o d x y : part_equivalent (add_point o d) (moved_part d x) y = part_equivalent o x y.
Proof.
  destruct x, y; cbn [moved_part part_equivalent]; try reflexivity; unfold line_equivalent; cbn [fst snd]; rewrite ?nearly_translate; try reflexivity.
  apply all_equivalent_map. intros s t _. cbn [fst snd]. now rewrite !nearly_translate.
Qed.
Lemma group_moved k g m : is_moved k g -> group_equivalent g m (sub_point (gr_position g) (gr_position m)) = group_equivalent k m (sub_point (gr_position k) (gr_position m)).
Proof.
  intro M. unfold group_equivalent. rewrite M. apply all_equivalent_map. intros x y _.
  replace (sub_point (gr_position g) (gr_position m)) with (add_point (sub_point (gr_position k) (gr_position m)) (displacement k g)); [apply part_translate|].
  unfold sub_point, add_point, displacement. cbn [fst snd]. f_equal; ring.
Qed.
Lemma nearly_refl p o : o = (0, 0) -> nearly_equal p (add_point p o) = true.
Proof.
  intros ->. unfold nearly_equal, add_point. cbn [fst snd].
  replace ((fst p - (fst p + 0)) * zq 1000000) with 0 by ring. replace ((snd p - (snd p + 0)) * zq 1000000) with 0 by ring. reflexivity.
Qed.
Lemma group_refl g : group_equivalent g g (sub_point (gr_position g) (gr_position g)) = true.
Proof.
  assert (Z0 : sub_point (gr_position g) (gr_position g) = (0, 0)) by (unfold sub_point; f_equal; ring). rewrite Z0. unfold group_equivalent. generalize (gr_parts g). intro l.
  assert (LR : forall s : point * point, line_equivalent s s (0, 0) = true) by (intro s; unfold line_equivalent; now rewrite !nearly_refl).
  assert (QR : forall q, qceq q q = true) by (intro q; destruct (qceq_spec q q); congruence).
  assert (OR : forall q, oeq q q = true) by (intro q; now apply oeq_iff).
  assert (PR : forall x, part_equivalent (0, 0) x x = true).
  { intros [a b ap pol|p d hs pol|p w h r hs pol|p n r t hs pol|s pol]; cbn [part_equivalent]; rewrite ?LR, ?QR, ?OR, ?Z.eqb_refl, ?nearly_refl; try reflexivity.
    induction s as [|x s IH]; [reflexivity|]. cbn. now rewrite LR, IH. }
  induction l as [|x l IH]; [reflexivity|]. cbn. now rewrite PR, IH.
Qed.
(** The table has a macro for the shape. *)
Definition has_macro digits (g : group) (t : macro_table) : Prop := exists l, GerberEval.tget (hash_amacro digits g) t = Some l /\ known_macro g l <> None.
Lemma add_macro_same h m t : exists l, GerberEval.tget h (add_macro h m t) = Some (l ++ [m]).
Proof.
  induction t as [|[k l] t [r IH]]; cbn [add_macro GerberEval.tget].
  - exists []. assert (Q : teq h h = true) by now apply teq_true. now rewrite Q.
  - destruct (teq k h) eqn:Q; cbn [GerberEval.tget]; rewrite Q; eauto.
Qed.
Lemma add_macro_more h m t h' l : GerberEval.tget h' t = Some l -> exists r, GerberEval.tget h' (add_macro h m t) = Some (l ++ r).
Proof.
  induction t as [|[k j] t IH]; cbn [add_macro GerberEval.tget]; [discriminate|]. destruct (teq k h') eqn:Q.
  - intros [= ->]. destruct (teq k h); cbn [GerberEval.tget]; rewrite Q; [now exists [m]|exists []; now rewrite app_nil_r].
  - intro H. destruct (teq k h); cbn [GerberEval.tget]; rewrite Q; [exists []; now rewrite app_nil_r|now apply IH].
Qed.
Lemma find_more {A} (f : A -> bool) l r : find f l <> None -> find f (l ++ r) <> None.
Proof. induction l as [|x l IH]; cbn; [congruence|]. destruct (f x); [discriminate|exact IH]. Qed.
Lemma known_more g l r : known_macro g l <> None -> known_macro g (l ++ r) <> None.
Proof.
  unfold known_macro. intros H E. assert (N : find (fun m => group_equivalent g (snd m) (sub_point (gr_position g) (gr_position (snd m)))) l <> None) by (intro Q; apply H; now rewrite Q).
  apply (find_more _ l r) in N. destruct (find _ (l ++ r)); [discriminate|congruence].
Qed.
Lemma get_has digits g c t : let '(_, (_, t')) := get_amacro digits g (c, t) in has_macro digits g t'.
Proof.
  unfold get_amacro. destruct (GerberEval.tget (hash_amacro digits g) t) as [l|] eqn:Q.
  - destruct (known_macro g l) as [d|] eqn:K; [exists l; rewrite K; split; [exact Q|discriminate]|].
    destruct (add_macro_same (hash_amacro digits g) (c_next c, g) t) as [r E]. exists (r ++ [(c_next c, g)]). split; [exact E|].
    unfold known_macro. intro H. assert (F : find (fun m => group_equivalent g (snd m) (sub_point (gr_position g) (gr_position (snd m)))) (r ++ [(c_next c, g)]) = None) by (destruct (find _ _); [discriminate|reflexivity]).
    pose proof (find_none _ _ F (c_next c, g) ltac:(apply in_or_app; right; now left)) as X. cbn [snd] in X. rewrite group_refl in X. discriminate.
  - destruct (add_macro_same (hash_amacro digits g) (c_next c, g) t) as [r E]. exists (r ++ [(c_next c, g)]). split; [exact E|].
    unfold known_macro. intro H. assert (F : find (fun m => group_equivalent g (snd m) (sub_point (gr_position g) (gr_position (snd m)))) (r ++ [(c_next c, g)]) = None) by (destruct (find _ _); [discriminate|reflexivity]).
    pose proof (find_none _ _ F (c_next c, g) ltac:(apply in_or_app; right; now left)) as X. cbn [snd] in X. rewrite group_refl in X. discriminate.
Qed.
Lemma get_keeps digits g k c t : has_macro digits k t -> let '(_, (_, t')) := get_amacro digits g (c, t) in has_macro digits k t'.
Proof.
  intros (l & Q & K). unfold get_amacro. destruct (match GerberEval.tget (hash_amacro digits g) t with Some l => known_macro g l | None => None end); [exists l; auto|].
  destruct (add_macro_more (hash_amacro digits g) (c_next c, g) t _ _ Q) as [r E]. exists (l ++ r). split; [exact E|now apply known_more].
Qed.
Lemma list_keeps digits o k items : forall c c', has_macro digits k (snd c) -> render_list digits o items c = Ok c' -> has_macro digits k (snd c').
Proof.
  induction items as [|x items IH]; intros [c t] c' H R; cbn [render_list] in R; [apply ok_inj in R as <-; exact H|].
  destruct (render_one digits o x (c, t)) as [c1|] eqn:E; [|discriminate]. cbn [bind] in R. apply (IH c1 c'); [|exact R]. cbn [snd] in H. destruct x as [y|cm g]; cbn [render_one fst snd] in E.
  - destruct (render o y c); [|discriminate]. cbn [bind] in E. apply ok_inj in E as <-. exact H.
  - pose proof (get_keeps digits g k (commented cm c) t H) as G. unfold commented in G. destruct (get_amacro digits g _) as [d [c2 t2]]. apply ok_inj in E as <-. exact G.
Qed.
Lemma render_list_app digits o a b : forall c, render_list digits o (a ++ b) c = do c1 <- render_list digits o a c; render_list digits o b c1.
Proof. induction a as [|x a IH]; intro c; [reflexivity|]. cbn. destruct (render_one digits o x c); [apply IH|reflexivity]. Qed.
Lemma reuse_lemma digits o st items1 cm k items2 cm' g c c' : is_moved k g -> hash_amacro digits g = hash_amacro digits k ->
  render_list digits o (items1 ++ Macro cm k :: items2) (new_renderer st) = Ok c -> render_one digits o (Macro cm' g) c = Ok c' ->
  c_header (fst c') = c_header (fst c).
Proof.
  intros M HH R S. rewrite render_list_app in R. destruct (render_list digits o items1 (new_renderer st)) as [[c0 t0]|]; [|discriminate]. cbn [bind render_list] in R.
  destruct (render_one digits o (Macro cm k) (c0, t0)) as [[c1 t1]|] eqn:E; [|discriminate]. cbn [bind] in R.
  assert (H1 : has_macro digits k t1).
  { cbn [render_one fst snd] in E. pose proof (get_has digits k (commented cm c0) t0) as G. unfold commented in G. destruct (get_amacro digits k _) as [d [c2 t2]]. apply ok_inj in E. injection E as _ <-. exact G. }
  pose proof (list_keeps digits o k items2 (c1, t1) c H1 R) as (l & Q & K). destruct c as [c t]. cbn [snd] in Q.
  cbn [render_one fst snd] in S. fold (commented cm' c) in S. unfold get_amacro in S. rewrite HH, Q in S.
  assert (KG : known_macro g l = known_macro k l).
  { unfold known_macro. f_equal. clear - M. induction l as [|m l IH]; [reflexivity|]. cbn [find]. rewrite (group_moved k g (snd m) M). now rewrite IH. }
  rewrite KG in S. destruct (known_macro k l) as [d|]; [|congruence]. cbn [fst snd] in S. apply ok_inj in S as <-. cbn [fst].
  destruct (flash_parts o (gr_position g) (gr_polarity g) d (commented cm' c)) as (F & _). rewrite F. destruct cm'; reflexivity.
Qed.
