(** Properties of boards loaded from directories. *)
From Coq Require Import Permutation Sorted.
From Verif Require Import PyBase LayersSpec LayersProofs DirModel DirSpec DirProofs.
Open Scope list_scope.

(** ** C124 *)
Theorem C124_layers : forall read dir files ks name, board_files read files ks ->
  exists b n, from_directory read dir name files = Ok (b, n) /\ Permutation b (filter known (layers_of dir 0 ks)) /\ StronglySorted above b.
Proof. exact C124_lemma. Qed.
Print Assumptions C124_layers.
(** Otherwise the first error that is neither a ParseError nor an IOError is raised. *)
Theorem C124_error : forall read dir files e name, board_error read files e -> from_directory read dir name files = Err e.
Proof. exact C124_error_lemma. Qed.
Print Assumptions C124_error.
Theorem C124_cases : forall read files, (exists ks, board_files read files ks) \/ (exists e, board_error read files e).
Proof. exact board_cases. Qed.
Print Assumptions C124_cases.
Ltac NO J := exfalso; repeat match type of J with _ \/ _ => destruct J as [J|J] end; first [contradiction|now vm_compute in J|discriminate J].
Ltac DL := let I := fresh in intros I; cbn in I; NO I.
Definition sample_read (f : text) : res camkind :=
  if teq f (T "amp.drl") then Ok CamExcellon else if teq f (T "notes.txt") then Err ParseError else if teq f (T "old") then Err IOError else Ok CamGerber.
Example C124_ex : exists ks, board_files sample_read (map T ["amp.gbl"; ".git"; "notes.txt"; "old"; "Thumbs.db"; "amp.drl"; "amp.gtl"]%string) ks /\ List.length ks = 3%nat.
Proof.
  assert (NI : forall f, existsb (fun g => teq f (T g)) ["amp.gbl"; "notes.txt"; "old"; "amp.drl"; "amp.gtl"]%string = true -> ~ ignored f).
  { intros f H. apply existsb_exists in H as (g & I & E). apply teq_true in E. subst f. cbn in I. intros [(r & E)|[E|E]];
      repeat (destruct I as [<-|I]; [discriminate|]); contradiction. }
  eexists. split.
  - apply files_loaded with (k := CamGerber); [apply NI; reflexivity|reflexivity|]. apply files_ignored; [left; eexists; reflexivity|].
    apply files_skipped; [apply NI; reflexivity|left; reflexivity|]. apply files_skipped; [apply NI; reflexivity|right; reflexivity|].
    apply files_ignored; [right; left; reflexivity|]. apply files_loaded with (k := CamExcellon); [apply NI; reflexivity|reflexivity|].
    apply files_loaded with (k := CamGerber); [apply NI; reflexivity|reflexivity|]. apply files_none.
  - reflexivity.
Qed.
Example C124_ex_board : match from_directory sample_read (T "/home/me/fab") None (map T ["amp.gbl"; ".git"; "notes.txt"; "old"; "Thumbs.db"; "amp.drl"; "amp.gtl"]%string) with
  | Ok (b, n) => map l_class b = ["top"; "bottom"; "drill"]%string /\ n = T "amp"
  | Err _ => False
  end.
Proof. vm_compute. split; reflexivity. Qed.

(** ** C125 *)
Theorem C125_name_partial : forall read above name files ks, directory above -> ~ In "/"%char name -> board_files read files ks -> let dir := above ++ name in
  (forall n, exists l, from_directory read dir (Some n) files = Ok (l, n)) /\
  (forall b, ks <> [] -> Forall2 (fun l x => called (l_class l) (fst x) b) (layers_of dir 0 ks) ks ->
     exists l, from_directory read dir None files = Ok (l, b)) /\
  (ks = [] -> exists l, from_directory read dir None files = Ok (l, name)) /\
  (forall i j f g k k' l l' b b', nth_error ks i = Some (f, k) -> nth_error ks j = Some (g, k') ->
     nth_error (layers_of dir 0 ks) i = Some l -> nth_error (layers_of dir 0 ks) j = Some l' ->
     called (l_class l) f b -> called (l_class l') g b' -> b <> b' -> exists x, from_directory read dir None files = Ok (x, name)).
Proof. intros read above name files ks A N B dir. pose proof (C125_lemma read dir files ks B) as H. unfold dir in *. rewrite (LayersProofs.basename_dir above name A N) in H. exact H. Qed.
Print Assumptions C125_name_partial.
Example C125_ex_dir : directory (T "/") /\ ~ In "/"%char (T "fab") /\ T "/" ++ T "fab" = T "/fab".
Proof. split; [right; now exists []|]. split; [intros I; repeat (destruct I as [I|I]; [discriminate|]); exact I|reflexivity]. Qed.
Example C125_ex : forall id k, Forall2 (fun l x => called (l_class l) (fst x) (T "my.amp")) (layers_of (T "/fab") id [(T "my.amp.gtl", k); (T "my.amp.bot.gbr", CamGerber)]) [(T "my.amp.gtl", k); (T "my.amp.bot.gbr", CamGerber)].
Proof.
  intros id k. cbn [layers_of]. apply Forall2_cons; [|apply Forall2_cons; [|constructor]].
  - apply (called_plain _ (T "my.amp") (T "gtl")); [exists "m"%char; split; [now left|discriminate]|DL|].
    intros b s E D S. assert (Q : s = T "amp").
    { destruct b as [|x1 [|x2 [|x3 [|x4 [|x5 [|x6 b]]]]]]; cbn in E; try discriminate E; [injection E; intros; subst; reflexivity|].
      exfalso. injection E; intros N _ _ _ _ _ _. destruct b; discriminate N. }
    subst s. destruct S as [(h & n & I & C & J & E')|[C (a & c & E')]].
    + assert (N : n = "amp"%string). { clear -E'. apply (f_equal string_of_list_ascii) in E'. unfold T in E'. rewrite !string_of_list_ascii_of_string in E'. auto. }
      subst n. cbn in I. repeat (destruct I as [<-|I]; [cbn in J; NO J|]). contradiction.
    + apply (f_equal (@List.length ascii)) in E'. rewrite !app_length in E'. cbn in E'. lia.
  - assert (C : l_class (from_cam (S id) CamGerber (T "/fab" ++ "/"%char :: T "my.amp.bot.gbr")) = "bottom"%string) by reflexivity.
    cbn [fst]. rewrite C. apply (called_signed _ (T "my.amp") (T "bot") (T "gbr")); [exists "m"%char; split; [now left|discriminate]|DL|DL|].
    left. exists (nth 1 hints (mkHint "" [] [])), "bot"%string. cbn. auto 10.
Qed.
(** The full statement is false: KiCad puts the signature behind a dash. *)
Theorem C125_kicad_refuted :
  match from_directory (fun _ => Ok CamGerber) (T "/home/me/fab") None (map T ["amp-F.Cu.gbr"; "amp-B.Cu.gbr"; "amp-Edge.Cuts.gbr"]%string) with
  | Ok (b, n) => map l_class b = ["outline"; "top"; "bottom"]%string /\ n = T "fab"
  | Err _ => False
  end.
Proof. vm_compute. split; reflexivity. Qed.
Print Assumptions C125_kicad_refuted.
Example C125_differ : match from_directory (fun _ => Ok CamGerber) (T "/home/me/fab") None (map T ["a.gtl"; "b.gbl"]%string) with
  | Ok (b, n) => List.length b = 2%nat /\ n = T "fab" | Err _ => False end.
Proof. vm_compute. split; reflexivity. Qed.
