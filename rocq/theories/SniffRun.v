From Verif Require Import PyBase QcLib NumModel NumSpec NumProofs FmtProofs GerberText GerberTextProofs ExcellonModel ExcellonFile ExcellonSpec ExcellonProofs ExcellonRun
  ToolModel ToolSpec ToolProofs HeadSpec HeadRun SniffModel SniffSpec SniffProofs.
From Coq Require Import QArith Qcanon.
Open Scope list_scope.
Open Scope Qc_scope.

(** ** The lines of a file and their marks *)
Lemma starts_with_head p t c : starts_with (c :: p) t = true -> hd_error t = Some c.
Proof. destruct t as [|x t]; [discriminate|]. cbn. destruct (ceq_spec c x); [now subst|discriminate]. Qed.
Lemma silent_absent t : ~ In ";"%char t -> ~ In "G"%char t -> ~ In "I"%char t -> ~ In "M"%char t -> silent t.
Proof.
  intros A B C D. repeat split.
  - destruct t as [|x t]; [discriminate|]. cbn. intros E. injection E as ->. apply A. now left.
  - destruct (starts_with (T "G0") t) eqn:E; [|reflexivity]. apply starts_with_head in E. destruct t as [|x t]; [discriminate|]. injection E as ->. destruct B. now left.
  - now apply text_in_absent.
  - now apply text_in_absent.
Qed.
Lemma field_absent i d z l t v c : field_reads i d z l t v -> num_char c = false -> ~ In c (T l) -> ~ In c t.
Proof. intros [|t' v' R] H N; [auto|]. intros I. apply in_app_or in I as [I|I]; [auto|]. exact (nums_not_in _ _ (proj1 (reads_nums _ _ _ _ _ R)) H I). Qed.
Lemma says_silent i d z x t : says i d z x t -> silent t.
Proof.
  assert (L : forall c, In c (T ";GIM") -> num_char c = false) by (intros c I; cbn in I; intuition (subst; reflexivity)).
  assert (G : forall t, (forall c, In c (T ";GIM") -> ~ In c t) -> silent t) by (intros t' H; apply silent_absent; apply H; cbn; tauto).
  intros [n ds Dd Nd Ld En|n ds cs Dd Ld En Dc Lc| | | |a b tx ty Fx Fy _|k ds a b tx ty Dd Nd En Fx Fy].
  - apply G; intros c C I. cbn [T list_ascii_of_string app] in I. destruct I as [I|I]; [subst; cbn in C; intuition discriminate|]. exact (nums_not_in _ _ (digits_nums _ Dd) (L c C) I).
  - apply G; intros c C I. cbn [T list_ascii_of_string app] in I. destruct I as [I|I]; [subst; cbn in C; intuition discriminate|]. apply in_app_or in I as [I|I]; [exact (nums_not_in _ _ (digits_nums _ Dd) (L c C) I)|exact (nums_not_in _ _ (digits_nums _ Dc) (L c C) I)].
  - repeat split; discriminate.
  - repeat split; discriminate.
  - repeat split; discriminate.
  - apply G; intros c C I. apply in_app_or in I as [I|I]; revert I; eapply field_absent; try eassumption; auto; cbn; intros [<-|[]]; cbn in C; intuition discriminate.
  - apply G; intros c C I. cbn [T list_ascii_of_string app] in I. destruct I as [I|I]; [subst; cbn in C; intuition discriminate|]. apply in_app_or in I as [I|I]; [exact (nums_not_in _ _ (digits_nums _ Dd) (L c C) I)|].
    apply in_app_or in I as [I|I]; revert I; eapply field_absent; try eassumption; auto; cbn; intros [<-|[]]; cbn in C; intuition discriminate.
Qed.
Lemma defines_silent i d z x t : defines i d z x t -> silent t.
Proof.
  intros [n ds ps r Dd Nd En P]. assert (L : forall c, In c (T ";GIM") -> num_char c = false) by (intros c I; cbn in I; intuition (subst; reflexivity)).
  assert (H : forall c, In c (T ";GIM") -> ~ In c (T "T" ++ ds ++ r)).
  { intros c C I. cbn [T list_ascii_of_string app] in I. destruct I as [I|I]; [subst; cbn in C; intuition discriminate|]. apply in_app_or in I as [I|I]; [exact (nums_not_in _ _ (digits_nums _ Dd) (L c C) I)|].
    revert I. eapply params_chars; [exact P|auto|]. cbn. cbn in C. intuition (subst; discriminate). }
  apply silent_absent; apply H; cbn; tauto.
Qed.
Section Calm.
Variable hs : unit_ -> text -> res (option tool).
(** Lines which add no mark. *)
Definition calm (t : text) : Prop := silent t \/ exists c, t = ";"%char :: c /\ text_in (T "FILE_FORMAT") (lstrip ";"%char c) = false.
Lemma calm_line st t st' : parse_line hs st t = Ok st' -> x_prev st = [] -> calm t -> marks st' = marks st /\ x_prev st' = [].
Proof.
  intros H E [S|(c & -> & F)]; [exact (silent_line hs _ _ _ H E S)|]. rewrite (dispatch_comment hs st c E) in H. apply comment_line_marks in H as (M & P & _).
  change (lstrip ";"%char (";"%char :: c)) with (lstrip ";"%char c) in M. cbn [mark] in M. rewrite F, app_nil_r in M. split; [exact M|congruence].
Qed.
Lemma calm_lines l : forall st st', parse_lines hs st l = Ok st' -> x_prev st = [] -> Forall calm l -> marks st' = marks st /\ x_prev st' = [].
Proof.
  induction l as [|t l IH]; intros st st' H E F; cbn [parse_lines] in H; [ok H; auto|]. apply bind_ok in H as (s & H & K). inversion F as [|? ? S F']; subst.
  destruct (calm_line _ _ _ H E S) as [M P]. destruct (IH _ _ K P F') as [M' P']. split; congruence.
Qed.
Lemma remark_calm t : remark t -> calm t.
Proof.
  intros [c N K]. right. exists c. split; [reflexivity|]. apply not_occurs_text_in; [discriminate|]. intros O. apply (K (T "FILE_FORMAT")); [cbn; tauto|].
  destruct (lstrip_semi c) as [a Ea]. rewrite Ea. rewrite <- (app_nil_r (lstrip ";"%char c)). now apply occurs_sub.
Qed.
Lemma lstrip_head c t : match t with x :: _ => x <> c | [] => True end -> lstrip c t = t.
Proof. destruct t as [|x t]; [reflexivity|]. cbn. intros H. apply ceq_false in H. now rewrite H. Qed.
Lemma without_calm t : without t -> calm (";"%char :: t).
Proof.
  intros W. right. exists t. split; [reflexivity|]. rewrite lstrip_head by now apply without_head. apply (text_in_absent "F"%char). apply without_in; [exact W|cbn; tauto].
Qed.
Lemma header_calm i d z xs es hl : header i d z xs es hl -> Forall calm (map strip hl).
Proof.
  intros H. induction H as [|x t xs es ts X H IH|t xs es ts R H IH|t xs es ts P H IH|a b t e xs es ts A B X H IH|a b t e xs es ts A B X H IH]; cbn [map]; constructor; auto.
  - rewrite (strip_nospace t) by (eapply defines_nospace; eassumption). left. eapply defines_silent; eassumption.
  - now apply remark_calm, remark_strip.
  - destruct P as [->| ->]; right; eexists; split; reflexivity.
  - replace (T ";" ++ a ++ T " " ++ t ++ b) with (";"%char :: (a ++ T " ") ++ t ++ b) by (cbn; now rewrite <- app_assoc). rewrite (size_strip e) by assumption. apply without_calm.
    apply without_app; [|eapply hole_size_without; eassumption]. apply without_app; [now apply without_blanks|now apply without_lit].
  - change (T ";" ++ a ++ (T "T" ++ t) ++ b) with (";"%char :: a ++ (T "T" ++ t) ++ b). rewrite (size_strip e) by assumption. apply without_calm.
    apply without_app; [now apply without_blanks|eapply hole_size_without; eassumption].
Qed.
Lemma opening_marks fs pre : opening fs pre -> forall st st', parse_lines hs st (map strip pre) = Ok st' -> x_prev st = [] ->
  x_prev st' = [] /\ exists cs, marks st' = marks st ++ map inr cs /\ Forall2 (fun c f => read_format c = Ok [Z.of_nat (fst f); Z.of_nat (snd f)]) cs fs.
Proof.
  intros H. induction H as [|t fs ts R H IH|a b i d fs ts Na Nb H IH]; intros st st' P E; cbn [map parse_lines] in P.
  - ok P. split; [exact E|]. exists []. rewrite app_nil_r. split; [reflexivity|constructor].
  - apply bind_ok in P as (s & P & Q). destruct (calm_line _ _ _ P E (remark_calm _ (remark_strip _ R))) as [M E']. destruct (IH _ _ Q E') as (E2 & cs & M2 & F). split; [exact E2|]. exists cs. rewrite M2, M. auto.
  - assert (Es : strip (T ";FILE_FORMAT=" ++ a ++ T ":" ++ b) = T ";FILE_FORMAT=" ++ a ++ T ":" ++ b).
    { destruct (number_last b _ Nb) as (r & c & -> & Hc). apply (strip_bounds _ ";"%char c); [cbn; eauto| |reflexivity|exact Hc]. exists (T ";FILE_FORMAT=" ++ a ++ T ":" ++ r). cbn. now rewrite <- !app_assoc. }
    rewrite Es, (format_step hs st a b i d E Na Nb) in P. cbn [bind] in P. destruct (IH _ _ P E) as (E2 & cs & M2 & F). split; [exact E2|].
    exists ((T "FILE_FORMAT=" ++ a ++ T ":" ++ b) :: cs). split; [|constructor; [now apply format_reads|exact F]]. rewrite M2. cbn [map].
    change (marks (with_format [Z.of_nat i; Z.of_nat d] (add_stmt (EComment (T "FILE_FORMAT=" ++ a ++ T ":" ++ b)) st))) with (marks (add_stmt (EComment (T "FILE_FORMAT=" ++ a ++ T ":" ++ b)) st)).
    rewrite marks_add, <- app_assoc. reflexivity.
Qed.
(** The marks of a file. *)
Lemma file_marks se ext fs pre u z fo tu i d xs es hl e prog body tail eol f :
  opening fs pre -> format_text fo tu -> header i d z xs es hl -> (e = T "%" \/ e = T "M95") -> Forall2 (says i d z) prog body -> (tail = [] \/ tail = [T "M30"]) -> line_end eol ->
  parse_raw hs se ext (file_text eol (T "M48" :: pre ++ (unit_text u ++ zeros_text z ++ tu) :: hl ++ e :: body ++ tail)) = Ok f ->
  exists cs, flat_map mark (map fst (xf_stmts f)) = map inr cs ++ [inl z] /\ Forall2 (fun c f => read_format c = Ok [Z.of_nat (fst f); Z.of_nat (snd f)]) cs fs.
Proof.
  intros Fo Ft Fd He Fp Htl Eo. unfold parse_raw.
  assert (NB : Forall nospace body) by (eapply Forall2_right; [|exact Fp]; intros; eapply says_nospace; eassumption).
  assert (NT : Forall nospace tail) by (destruct Htl as [->| ->]; repeat constructor).
  assert (NE : nospace e) by (destruct He as [->| ->]; repeat constructor).
  assert (NU : nospace (unit_text u ++ zeros_text z ++ tu)) by (destruct Ft, u, z; repeat constructor).
  assert (ST : forall l, Forall nospace l -> map strip l = l).
  { intros l F. induction F as [|a l H F IH]; [reflexivity|]. cbn [map]. now rewrite IH, strip_nospace. }
  rewrite lines_stripped; [|exact Eo|].
  2: { assert (NL : forall l, Forall nospace l -> Forall no_newline l) by (intros l F; eapply Forall_impl; [|exact F]; exact nospace_nl).
       constructor; [apply nospace_nl; repeat constructor|]. apply Forall_app; split; [eapply opening_lines; eassumption|]. constructor; [now apply nospace_nl|].
       apply Forall_app; split; [eapply header_lines; eassumption|]. constructor; [now apply nospace_nl|]. apply Forall_app; split; auto. }
  rewrite map_cons, map_app, map_cons, map_app, map_cons, map_app. rewrite (ST body NB), (ST tail NT), (strip_nospace e NE), (strip_nospace _ NU). change (strip (T "M48")) with (T "M48").
  intros H. apply bind_ok in H as (st & P & H). apply bind_ok in H as (se' & _ & H). ok H. cbn [xf_stmts]. rewrite map_map. cbn [fst]. rewrite map_id. fold (marks st).
  rewrite <- app_comm_cons in P. cbn [parse_lines] in P. rewrite dispatch_m48 in P by reflexivity. cbn [bind] in P. rewrite <- app_assoc, parse_lines_app in P.
  apply bind_ok in P as (s1 & P1 & P). destruct (opening_marks fs pre Fo _ _ P1 eq_refl) as (E1 & cs & M1 & F1). exists cs. split; [|exact F1].
  rewrite <- app_comm_cons in P. cbn [parse_lines] in P. rewrite (fun st H => dispatch_unit hs st u z fo tu H Ft) in P by exact E1. cbn [bind] in P.
  match type of P with parse_lines hs ?s _ = _ => set (s2 := s) in P end.
  assert (M2 : marks s2 = marks s1 ++ [inl z] /\ x_prev s2 = []).
  { unfold s2. split; [|destruct fo as [[a b]|]; exact E1]. change [inl z] with (mark (EUnit u z fo)). rewrite <- (marks_add (EUnit u z fo)). destruct fo as [[a b]|]; reflexivity. }
  destruct M2 as [M2 E2]. destruct (calm_lines _ _ _ P E2) as [M3 _].
  - rewrite <- app_assoc. apply Forall_app; split; [eapply header_calm; eassumption|]. rewrite <- app_comm_cons. constructor.
    + left. destruct He as [->| ->]; repeat split; discriminate.
    + rewrite <- app_assoc. apply Forall_app; split; [eapply Forall2_right; [|exact Fp]; intros ? ? X; left; eapply says_silent; exact X|].
      apply Forall_app; split; [|repeat constructor; discriminate]. destruct Htl as [->| ->]; repeat constructor; discriminate.
  - rewrite M3, M2, M1. reflexivity.
Qed.
End Calm.

(** ** Reading files whose format is stated *)
Lemma mark_zeros l : stated_zeros l = flat_map (fun m => match m with inl z => [z] | inr _ => [] end) (flat_map mark (map fst (xf_stmts l))).
Proof.
  unfold stated_zeros. induction (xf_stmts l) as [|[s u] r IH]; [reflexivity|]. cbn [map fst flat_map]. rewrite flat_map_app, <- IH. f_equal. destruct s; try reflexivity. cbn [mark]. now destruct (text_in _ _).
Qed.
Lemma mark_comments l : format_comments l = flat_map (fun m => match m with inl _ => [] | inr c => [c] end) (flat_map mark (map fst l)).
Proof.
  unfold format_comments. induction l as [|[s u] r IH]; [reflexivity|]. cbn [map fst flat_map]. rewrite flat_map_app, <- IH. f_equal. destruct s; try reflexivity. cbn [mark]. now destruct (text_in _ _).
Qed.
Lemma known_more xs es ext n : known xs es [] n = true -> known xs es ext n = true.
Proof. unfold known. destruct (defined n xs); [auto|]. destruct (latest n es); [auto|]. cbn. discriminate. Qed.
Lemma tool_known_more (a b : bool) prog : (a = true -> b = true) -> tool_known a prog -> tool_known b prog.
Proof. intros H. induction prog as [|[n| | |x y|k dx dy] l IH]; cbn; intuition. Qed.
Lemma boxes_ok s w hs : forall acc, (exists xs, Forall2 (hole_as s w) hs xs /\ Forall (fun h => w (fst h) <> None) xs) -> exists b, boxes s hs acc = Ok b.
Proof.
  induction hs as [|h hs IH]; intros acc (xs & F & N); [cbn; eauto|]. inversion F as [|? x ? xs' Hh F']; subst. inversion N as [|? ? Nx N']; subst.
  destruct Hh as (dm & V & D). unfold hole_view, tool_of in V. destruct h as [[l|] p|[l|] a b r]; try discriminate; try (destruct (nth_error s l); discriminate).
  destruct (nth_error s l) as [t|] eqn:E; [|discriminate]. injection V as V1 V2 V3. cbn [boxes]. unfold hit_box, tool_at, tget. cbn [hit_tool]. rewrite E. cbn [bind]. rewrite V2.
  destruct dm as [q|]; [|destruct (w (fst x)); [destruct D|congruence]]. cbn [bind]. apply IH. eauto.
Qed.
Lemma diameters_ok f w xs : Forall2 (hole_as (xf_store f) w) (xf_hits f) xs -> Forall (fun h => w (fst h) <> None) xs -> exists ds, diameters f ds.
Proof.
  unfold diameters. generalize (xf_hits f). intros hs F. induction F as [|h x hs xs Hh F IH]; intros N; [exists []; constructor|]. inversion N as [|? ? Nx N']; subst. destruct (IH N') as (ds & D').
  destruct Hh as (dm & V & D). unfold hole_view, tool_of in V. destruct h as [[l|] p|[l|] a b r]; try discriminate; try (destruct (nth_error (xf_store f) l); discriminate).
  destruct (nth_error (xf_store f) l) as [t|] eqn:E; [|discriminate]. injection V as V1 V2 V3.
  destruct dm as [q|]; [|destruct (w (fst x)); [destruct D|congruence]]. exists (q :: ds). constructor; [|exact D']. exists l, t. auto.
Qed.
Lemma C97_lemma hs pi ext fs pre u z fo tu i d xs es hl e prog body tail eol : let data := file_text eol (T "M48" :: pre ++ (unit_text u ++ zeros_text z ++ tu) :: hl ++ e :: body ++ tail) in
  es = [] \/ hs = ToolModel.holesize false ->
  opening fs pre -> format_text fo tu -> (fo <> None \/ fs <> []) -> (forall se, (i, d) = format_in fo fs se) -> readable i d -> header i d z xs es hl ->
  (e = T "%" \/ e = T "M95") -> Forall2 (says i d z) prog body -> (tail = [] \/ tail = [T "M30"]) -> line_end eol -> tool_known (known xs es [] 1) prog ->
  (List.length fs = 1%nat \/ Forall (fun h => wanted u xs es [] (fst h) <> None) (holes None false (0, 0) prog)) ->
  (forall a b, fs = [(a, b)] -> detect hs pi data = Ok ([Z.of_nat a; Z.of_nat b], z)) /\
  (exists a b, detect hs pi data = Ok ([Z.of_nat a; Z.of_nat b], z)) /\
  exists f, loads hs pi data None ext = Ok f /\
    Forall2 (hole_as (xf_store f) (wanted u xs es ext)) (xf_hits f) (holes None false (0, 0) prog) /\
    xs_units (xf_set f) = u /\ xs_format (xf_set f) = (i, d) /\ xs_zeros (xf_set f) = z.
Proof.
  intros data HS Fo Ft Known Ei Hr Fd He Fp Htl Eo K W.
  assert (P : forall se ext, exists f, parse_raw hs se ext data = Ok f /\ Forall2 (hole_as (xf_store f) (wanted u xs es ext)) (xf_hits f) (holes None (start_inc se) (0, 0) prog) /\
    xs_units (xf_set f) = u /\ xs_format (xf_set f) = (i, d) /\ xs_zeros (xf_set f) = z).
  { intros se ext'. eapply C94_lemma; eauto. eapply tool_known_more; [|exact K]. apply known_more. }
  destruct (P x_default []) as (f0 & P0 & H0 & _).
  destruct (file_marks hs _ _ _ _ _ _ _ _ _ _ _ _ _ _ _ _ _ _ _ Fo Ft Fd He Fp Htl Eo P0) as (cs & M & C).
  assert (Z0 : stated_zeros f0 = [z]).
  { rewrite mark_zeros, M, flat_map_app. cbn. clear. induction cs as [|c cs IH]; [reflexivity|exact IH]. }
  assert (C0 : format_comments (xf_stmts f0) = cs).
  { rewrite mark_comments, M, flat_map_app. cbn. rewrite app_nil_r. clear. induction cs as [|c cs IH]; [reflexivity|]. cbn. now rewrite IH. }
  set (ls := map (fun f : fmt => [Z.of_nat (fst f); Z.of_nat (snd f)]) fs).
  assert (F0 : Forall2 (fun c f => read_format c = Ok f) (format_comments (xf_stmts f0)) ls).
  { rewrite C0. unfold ls. clear - C. induction C; constructor; auto. }
  assert (One : forall a b, fs = [(a, b)] -> detect hs pi data = Ok ([Z.of_nat a; Z.of_nat b], z)).
  { intros a b E. rewrite (detect_eq hs pi data f0 ls P0 F0), Z0. unfold ls. now rewrite E. }
  assert (Some_ : exists a b, detect hs pi data = Ok ([Z.of_nat a; Z.of_nat b], z)).
  { destruct (Nat.eq_dec (List.length fs) 1) as [L|L].
    - destruct fs as [|[a b] [|]]; try discriminate. exists a, b. now apply One.
    - destruct W as [W|W]; [congruence|]. assert (Ll : List.length ls <> 1%nat) by (unfold ls; now rewrite map_length).
      pose proof (choice hs pi data f0 ls P0 F0 (or_introl Ll)) as Ch. rewrite Z0 in Ch.
      assert (Wl : forall l, ls = [l] -> exists fm, proper l fm) by (intros l E; rewrite E in Ll; destruct (Ll eq_refl)). specialize (Ch Wl).
      assert (Pf : forall l, possible_format ls l <-> l = [2; 4]%Z \/ l = [2; 5]%Z \/ l = [3; 3]%Z) by (intros l; unfold possible_format; destruct ls as [|? [|]]; tauto || (destruct (Ll eq_refl))).
      destruct (detect hs pi data) as [k|er].
      + destruct Ch as [[A B] _]. apply Pf in A. cbn in B. destruct k as [l z']. cbn in A, B. subst z'. destruct A as [->|[->| ->]]; [exists 2%nat, 4%nat|exists 2%nat, 5%nat|exists 3%nat, 3%nat]; reflexivity.
      + exfalso. destruct Ch as [_ N]. destruct (P (mkXset Inch (2, 4)%nat z Absolute) []) as (f & Pf' & Hf & _). cbn [start_inc xs_notation] in Hf.
        destruct (boxes_ok (xf_store f) (wanted u xs es []) (xf_hits f) ((sentinel, - sentinel), (sentinel, - sentinel)) (ex_intro _ _ (conj Hf W))) as (b & B). destruct (diameters_ok f _ _ Hf W) as (ds & D).
        set (board := (fst (fst b) - snd (fst b)) * (fst (snd b) - snd (snd b))).
        assert (O : exists s, odd_at board (total (map (fun d => square (pi * d / zq 2)) ds)) s) by (destruct (Qc_eq_dec board 0); [exists 0; left; auto|eexists; right; split; [assumption|reflexivity]]).
        destruct O as (s & O). apply (N ([2; 4]%Z, z) s); [split; [apply Pf; auto|reflexivity]|]. exact (looks hs pi data ([2; 4]%Z, z) s (2, 4)%nat f b ds eq_refl Pf' B D O). }
  split; [exact One|]. split; [exact Some_|]. destruct Some_ as (a & b & E). unfold loads. rewrite E. cbn [bind]. rewrite (guess_proper ([Z.of_nat a; Z.of_nat b], z) (a, b) eq_refl). cbn [bind].
  destruct (P (mkXset Inch (a, b) z Absolute) ext) as (f & Hf). exists f. exact Hf.
Qed.
Lemma C97_lemma_loads py3 pi ext fs pre u z fo tu i d xs es hl e prog body tail eol : let data := file_text eol (T "M48" :: pre ++ (unit_text u ++ zeros_text z ++ tu) :: hl ++ e :: body ++ tail) in
  (es = [] \/ py3 = false) ->
  opening fs pre -> format_text fo tu -> (fo = Some (i, d) \/ fo = None /\ exists fs', fs = fs' ++ [(i, d)]) -> readable i d -> header i d z xs es hl ->
  (e = T "%" \/ e = T "M95") -> Forall2 (says i d z) prog body -> (tail = [] \/ tail = [T "M30"]) -> line_end eol -> tool_known (known xs es [] 1) prog ->
  (List.length fs = 1%nat \/ Forall (fun h => wanted u xs es [] (fst h) <> None) (holes None false (0, 0) prog)) ->
  exists f, loads (ToolModel.holesize py3) pi data None ext = Ok f /\
    Forall2 (hole_as (xf_store f) (wanted u xs es ext)) (xf_hits f) (holes None false (0, 0) prog) /\
    xs_units (xf_set f) = u /\ xs_format (xf_set f) = (i, d) /\ xs_zeros (xf_set f) = z.
Proof.
  intros data HS Fo Ft Known Hr Fd He Fp Htl Eo K W.
  eapply (fun h1 h2 h3 h4 h5 h6 h7 h8 h9 h10 h11 h12 h13 => proj2 (proj2 (C97_lemma _ pi ext fs pre u z fo tu i d xs es hl e prog body tail eol h1 h2 h3 h4 h5 h6 h7 h8 h9 h10 h11 h12 h13))); eauto.
  - destruct HS as [->| ->]; auto.
  - destruct Known as [->|[-> (fs' & ->)]]; [left; discriminate|right; destruct fs'; discriminate].
  - intros se. unfold format_in. destruct Known as [->|[-> (fs' & ->)]]; [reflexivity|]. now rewrite last_last.
Qed.
Lemma C97_lemma_detect py3 pi a b pre u z fo tu i d xs es hl e prog body tail eol : let data := file_text eol (T "M48" :: pre ++ (unit_text u ++ zeros_text z ++ tu) :: hl ++ e :: body ++ tail) in
  (es = [] \/ py3 = false) ->
  opening [(a, b)] pre -> format_text fo tu -> (i, d) = match fo with Some f => f | None => (a, b) end -> readable i d -> header i d z xs es hl ->
  (e = T "%" \/ e = T "M95") -> Forall2 (says i d z) prog body -> (tail = [] \/ tail = [T "M30"]) -> line_end eol -> tool_known (known xs es [] 1) prog ->
  detect (ToolModel.holesize py3) pi data = Ok ([Z.of_nat a; Z.of_nat b], z).
Proof.
  intros data HS Fo Ft Known Hr Fd He Fp Htl Eo K.
  eapply (fun h1 h2 h3 h4 h5 h6 h7 h8 h9 h10 h11 h12 h13 => proj1 (C97_lemma _ pi [] [(a, b)] pre u z fo tu i d xs es hl e prog body tail eol h1 h2 h3 h4 h5 h6 h7 h8 h9 h10 h11 h12 h13)); eauto.
  - destruct HS as [->| ->]; auto.
  - right. discriminate.
Qed.
Lemma C97_lemma_given py3 pi se ext fs pre u z fo tu i d xs es hl e prog body tail eol :
  let data := file_text eol (T "M48" :: pre ++ (unit_text u ++ zeros_text z ++ tu) :: hl ++ e :: body ++ tail) in
  (es = [] \/ py3 = false) ->
  opening fs pre -> format_text fo tu -> (i, d) = format_in fo fs se -> readable i d -> header i d z xs es hl ->
  (e = T "%" \/ e = T "M95") -> Forall2 (says i d z) prog body -> (tail = [] \/ tail = [T "M30"]) -> line_end eol -> tool_known (known xs es ext 1) prog ->
  exists f, loads (ToolModel.holesize py3) pi data (Some se) ext = Ok f /\
    Forall2 (hole_as (xf_store f) (wanted u xs es ext)) (xf_hits f) (holes None (start_inc se) (0, 0)%Qc prog) /\
    xs_units (xf_set f) = u /\ xs_format (xf_set f) = (i, d) /\ xs_zeros (xf_set f) = z.
Proof.
  intros data HS Fo Ft Ei Hr Fd He Fp Htl Eo K. unfold loads. cbn [bind]. apply (C94_lemma (ToolModel.holesize py3) se ext fs pre u z fo tu i d xs es hl e prog body tail eol); auto.
  destruct HS as [HS|HS]; [now left|right; now rewrite HS].
Qed.
