(** Sample aperture macros. *)
From Verif Require Import PyBase QcLib NumModel NumSpec NumProofs FloatCodec ReprModel FmtModel MacroModel MacroSpec MacroProofs SplitModel GerberText GerberTextSpec GerberEval AmModel AmSpec AmProofs AmWrite AmConv.
Open Scope Qc_scope.
Open Scope list_scope.

Definition dbl (m : Z) (k : nat) : Qc := rnd53 (grid m k).
Definition no_file : filesys := fun _ => Err IOError.
Definition is_double (v : Qc) : double v <-> rnd53 v = v := conj (fun x => x) (fun x => x).

Lemma plain_dbl m k : (m = 0%Z \/ (Qle_bool (1 # 10000) (this (qabs (dbl m k))) = true /\ Qle_bool (inject_Z (10 ^ 16)) (this (qabs (dbl m k))) = false)) -> plain_number (dbl m k).
Proof.
  intros H. split; [apply ReprProofs.rnd53_idem|]. destruct H as [->|[A B]].
  - left. unfold dbl. rewrite grid_dec. unfold dec. change (zq 0) with 0. unfold Qcdiv. rewrite Qcmult_0_l. apply qc_eq_iff. reflexivity.
  - right. split; [now apply Qle_bool_iff|]. unfold Qclt. apply Qnot_le_lt. intros C. apply Qle_bool_iff in C. change (this (zq (10 ^ 16))) with (inject_Z (10 ^ 16)) in C. congruence.
Qed.
Lemma short_dbl P m k : (Z.abs m < 10 ^ Z.of_nat P)%Z ->
  (m = 0%Z \/ (Qle_bool (1 # 10000) (this (qabs (grid m k))) = true /\ Qle_bool (this (zq (10 ^ Z.of_nat P))) (this (qabs (grid m k))) = false)) -> short_number P (dbl m k).
Proof.
  intros L H. exists m, k. split; [reflexivity|]. split; [exact L|]. destruct H as [->|[A B]]; [now left|right]. split; [now apply Qle_bool_iff|].
  unfold Qclt. apply Qnot_le_lt. intros C. apply Qle_bool_iff in C. congruence.
Qed.

(** A macro with one primitive of every kind. *)
Definition sample : list amprim :=
  [ACircle true (dbl 15 1) (dbl 1 1, dbl (-25) 2);
   AVector 20 false (dbl 3 1) (dbl 0 0, dbl 0 0) (dbl 12345678 6, dbl 1 0) (dbl 45 0);
   AOutline true (dbl 1 0, dbl 1 0) [(dbl 2 0, dbl 1 0); (dbl 1234 3, dbl 2 0); (dbl 1 0, dbl 1 0)] (dbl (-30) 0);
   APolygon true 6 (dbl 5 1, dbl 5 1) (dbl 125 2) (dbl 0 0);
   AMoire (dbl 0 0, dbl 0 0) (dbl 5 0) (dbl 1 1) (dbl 2 1) 3 (dbl 5 2) (dbl 6 0) (dbl 0 0);
   AThermal (dbl 0 0, dbl 0 0) (dbl 9 1) (dbl 7 1) (dbl 1 1) (dbl 45 0);
   ACenter true (dbl 68 1) (dbl 12 1) (dbl 34 1, dbl 6 1) (dbl 30 0);
   ALower true (dbl 68 1) (dbl 12 1) (dbl (-3) 0, dbl 6 1) (dbl 0 0)].

Ltac plain_n := apply plain_dbl; first [now left|right; split; reflexivity].
Ltac short_n := apply short_dbl; [lia|first [now left|right; split; reflexivity]].
Lemma sample_writable : Forall prim_writable sample.
Proof.
  unfold sample. repeat (apply Forall_cons || apply Forall_nil); cbn [prim_writable]; unfold plain_point, short_point, small_count; cbn [fst snd List.length];
    repeat match goal with
    | |- _ /\ _ => split
    | |- Forall _ _ => repeat (apply Forall_cons || apply Forall_nil)
    end; try plain_n; try short_n; try lia; try discriminate; try (now right); try reflexivity.
Qed.

(** ** What is not read back *)
(** The numbers and texts of a primitive, to compare computed results. *)
Definition nums (p : amprim) : list Q * text :=
  let pt (p : point) := [this (fst p); this (snd p)] in
  match p with
  | AComment t => ([], t)
  | ACircle _ d p => (this d :: pt p, [])
  | APolygon _ _ p d r => (pt p ++ [this d; this r], [])
  | AThermal p o i g r => (pt p ++ map this [o; i; g; r], [])
  | AUnsupported t => ([], t)
  | _ => ([], [])
  end.
Definition read_again (name : text) (ps : list amprim) : option (list (list Q * text)) :=
  match parse_text no_file (am_to_gerber name ps ++ [nl]) with
  | Ok ([SAM _ m _], _) =>
      match read_macro m with
      | Ok i => match am_build i [] with Ok ps => Some (map nums ps) | Err _ => None end
      | Err _ => None
      end
  | _ => None
  end.
Lemma reads_back_again name ps : reads_back no_file name ps -> read_again name ps = Some (map nums ps).
Proof. intros (m & i & P & R & B). unfold read_again. now rewrite P, R, B. Qed.

Definition far : list amprim := [APolygon true 6 (dbl 123456 5, 0) 1 0].
Definition tiny : list amprim := [ACircle true (dbl 5 5) (0, 0)].
Definition wide : list amprim := [AThermal (dbl 12345 0, 0) 1 1 1 0].
Definition commented : list amprim := [AComment (T "pad"); ACircle true 1 (0, 0)].
Definition unknown : list amprim := [AUnsupported (T "9,1,2"); ACircle true 1 (0, 0)].

Lemma refuted81 : ~ reads_back no_file (T "BOX") far /\ ~ reads_back no_file (T "BOX") tiny /\ ~ reads_back no_file (T "BOX") wide /\
  ~ reads_back no_file (T "BOX") commented /\ ~ reads_back no_file (T "BOX") unknown /\ ~ reads_back no_file (T "BOX") [].
Proof. repeat split; intros H; apply reads_back_again in H; vm_compute in H; discriminate H. Qed.
Lemma refuted81_values :
  read_again (T "BOX") commented = Some [([], T ",pad"); ([1; 0; 0]%Q, [])] /\
  map nums tiny = [([this (dbl 5 5); 0; 0]%Q, [])] /\ read_again (T "BOX") tiny = Some [([5; 0; -5]%Q, [])].
Proof. repeat split; vm_compute; reflexivity. Qed.

(** An outline without rotation. *)
Definition no_rotation : list Qc := [1; zq 2; 0; 0; 1; 1; 0; 0].
Lemma outline_length c vs p : means c vs p -> c = 4%Z -> exists q n, nth_error vs 1 = Some q /\ counts q (Z.of_nat n) /\ List.length vs = (2 * n + 5)%nat.
Proof.
  intros M. destruct M; intros E; try discriminate E; [destruct H; lia|]. exists q, (List.length l). split; [reflexivity|]. split; [exact H1|].
  cbn [List.length]. rewrite app_length, coords_length. cbn [List.length]. lia.
Qed.
Lemma refuted83 : exists p, from_gerber (yield_text (4%Z, map MNum no_rotation)) = Ok p /\ forall p', ~ means 4 (map rnd53 no_rotation) p'.
Proof.
  eexists. split; [vm_compute; reflexivity|]. intros p' M. destruct (outline_length _ _ _ M eq_refl) as (q & n & Q & C & L).
  rewrite map_length in L. change (List.length no_rotation) with 8%nat in L. lia.
Qed.

(** The modifiers of a primitive may come from the aperture: 1,1,$1x2,$2,0 with modifiers 0.75 and 3. *)
Definition by_modifiers : list block :=
  let lit t := (false, ETerm (TFac (FLit (mkLit (T t) None)))) in
  [BPrim 1 [lit "1"%string; (false, ETerm (TMul (TFac (FVar 1)) Times (FLit (mkLit (T "2") None)))); (false, ETerm (TFac (FVar 2))); lit "0"%string];
   BPrim 21 [lit "1"%string; lit "2"%string; lit "3"%string; lit "0"%string; lit "0"%string; lit "45"%string]].

Lemma pad1_name : macro_name (T "PAD1").
Proof.
  assert (K : forall c l, existsb (Ascii.eqb c) l = true -> In c l).
  { intros c l H. apply existsb_exists in H as (x & I & E). apply Ascii.eqb_eq in E. now subst. }
  split; [now apply K|]. split; [discriminate|]. repeat (apply Forall_cons || apply Forall_nil); now apply K.
Qed.
Lemma percent_header hdr r : split_loop [] hdr ("%"%char :: r) = split_loop [] true ("%"%char :: r).
Proof. reflexivity. Qed.
Lemma macro_in_file depth fs st name ps rest : macro_name name -> ps <> [] -> Forall prim_writable ps ->
  exists macro instrs, read_macro macro = Ok instrs /\ am_build instrs [] = Ok ps /\
  forall l st', parse_data depth fs st ("%"%char :: rest) = Ok (l, st') ->
    parse_data depth fs st (am_to_gerber name ps ++ nl :: "%"%char :: rest) = Ok (SAM name macro [] :: l, st').
Proof.
  intros Hn NE W. destruct (blocks_of ps W) as (bs & ys & _).
  rewrite GerberTextProofs.parse_data_eq.
  match goal with |- context [parse_cmds ?inc _ _ _] => destruct (macro_statement inc st name ps (nl :: "%"%char :: rest) Hn NE W) as (macro & is & R & B & P) end.
  exists macro, is. split; [exact R|]. split; [exact B|]. intros l st' H. rewrite GerberTextProofs.parse_data_eq. unfold split_commands in *. rewrite P.
  assert (E : fst (split_loop [] false (nl :: "%"%char :: rest)) = fst (split_loop [] true ("%"%char :: rest))).
  { rewrite <- (percent_header false). transitivity (fst (let (ys, t) := split_loop [] false ("%"%char :: rest) in (ys, t))); [reflexivity|].
    destruct (split_loop [] false ("%"%char :: rest)); reflexivity. }
  rewrite E, H. reflexivity.
Qed.

Lemma by_modifiers_case : string_of_list_ascii (macro_text by_modifiers) = "1,1,$1x2,$2,0*21,1,2,3,0,0,45*"%string /\
  Forall block_ok by_modifiers /\ exists ys,
  macro_value (modifier_env [grid 75 2; zq 3]) by_modifiers = Some ys /\
  Forall2 (fun y p => exists ws, snd y = map MNum ws /\ means (fst y) (map rnd53 ws) p) ys
    [ACircle true (rnd53 (grid 75 2 * lit_value (mkLit (T "2") None))) (rnd53 (zq 3), rnd53 (lit_value (mkLit (T "0") None)));
     ACenter true (rnd53 (lit_value (mkLit (T "2") None))) (rnd53 (lit_value (mkLit (T "3") None)))
       (rnd53 (lit_value (mkLit (T "0") None)), rnd53 (lit_value (mkLit (T "0") None))) (rnd53 (lit_value (mkLit (T "45") None)))].
Proof.
  split; [vm_compute; reflexivity|]. split.
  - assert (L : forall t, all_digits t = true -> t = T "0" \/ (exists c r, t = c :: r /\ c <> "0"%char) -> mod_ok (false, ETerm (TFac (FLit (mkLit t None))))).
    { intros t D H. split; [|split; [exact I|discriminate]]. split; [now apply digit_string_iff|]. split; [exact I|]. tauto. }
    assert (L' : forall c r, is_digit c = true -> all_digits r = true -> c <> "0"%char -> mod_ok (false, ETerm (TFac (FLit (mkLit (c :: r) None))))).
    { intros c r D H N. apply L; [cbn; now rewrite D|]. right. eauto. }
    unfold by_modifiers. repeat (apply Forall_cons || apply Forall_nil); cbn [block_ok]; (split; [lia|]); (split; [discriminate|]);
      repeat (apply Forall_cons || apply Forall_nil).
    all: try (apply L'; [reflexivity|reflexivity|discriminate]).
    all: try (apply L; [reflexivity|now left]).
    + split; [|split; [|discriminate]]; cbn; [|tauto]. split; [lia|]. split; [now apply digit_string_iff|]. split; [exact I|]. right. left. exists "2"%char, []. split; [reflexivity|discriminate].
    + split; [cbn; lia|]. split; [exact I|discriminate].
  - eexists. split; [reflexivity|]. constructor; [|constructor; [|constructor]].
    + eexists. split; [cbn [snd]; exact (eq_refl (map MNum [_; _; _; _]))|]. cbn [fst map]. apply M_circle. split; intros _; [apply qc_eq_iff|]; reflexivity.
    + eexists. split; [cbn [snd]; exact (eq_refl (map MNum [_; _; _; _; _; _]))|]. cbn [fst map]. apply M_center. split; intros _; [apply qc_eq_iff|]; reflexivity.
Qed.
