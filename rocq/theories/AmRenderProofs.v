(** Proofs about comparing and writing macro shapes. *)
From Verif Require Import PyBase QcLib NumModel NumSpec NumProofs GerberText GerberTextSpec GerberTextProofs MacroModel GerberEval GerberEvalSpec GerberEvalProofs WriterModel WriterSpec WriterProofs WriterRound WriterFile.
From Verif Require FloatCodec.
From Verif Require Import AmModel AmSpec AmProofs AmWrite AmRenderSpec.
Open Scope Qc_scope.
Open Scope list_scope.

(** ** Comparing *)
Lemma rhe_zero v : rhe v = 0%Z <-> qabs v <= Q2Qc (1 # 2).
Proof.
  split.
  - intro H. destruct (rhe_bounds v) as [A B]. rewrite H in A, B. change (zq 0) with 0 in A, B. unfold qabs. destruct (Qclt_le_dec v 0); qclra.
  - intro H. assert (A : - Q2Qc (1 # 2) <= v) by (unfold qabs in H; destruct (Qclt_le_dec v 0); qclra).
    assert (B : v <= Q2Qc (1 # 2)) by (unfold qabs in H; destruct (Qclt_le_dec v 0); qclra).
    destruct (Qc_eq_dec v (Q2Qc (1 # 2))) as [->|N1]; [reflexivity|].
    destruct (Qc_eq_dec v (- Q2Qc (1 # 2))) as [->|N2]; [reflexivity|].
    apply rhe_unique; change (zq 0) with 0.
    + apply Qcle_lt_or_eq in A as [A|A]; [qclra|]. exfalso. apply N2. now rewrite <- A.
    + apply Qcle_lt_or_eq in B as [B|B]; [qclra|]. now exfalso.
Qed.
Lemma near_iff a b : (rhe ((a - b) * zq 1000000) =? 0)%Z = true <-> near a b.
Proof.
  rewrite Z.eqb_eq, rhe_zero. unfold near. rewrite FloatCodec.qabs_mult_pos by reflexivity. set (v := qabs (a - b)). clearbody v.
  assert (E : Q2Qc (1 # 2) = Q2Qc (1 # 2000000) * zq 1000000) by (apply Qc_is_canon; vm_compute; reflexivity). rewrite E. split; intro H.
  - apply Qcmult_lt_0_le_reg_r with (z := zq 1000000); [reflexivity|exact H].
  - apply Qcmult_le_compat_r; [exact H|discriminate].
Qed.
Lemma nearly_iff p q o : nearly_equal p (add_point q o) = true <-> moved_to o q p.
Proof. unfold nearly_equal, moved_to, add_point. cbn [fst snd]. now rewrite andb_true_iff, !near_iff. Qed.
Lemma line_iff l k o : line_equivalent l k o = true <-> line_moved o k l.
Proof. unfold line_equivalent, line_moved. now rewrite andb_true_iff, !nearly_iff. Qed.
Lemma all_iff {A} (f : A -> A -> bool) (R : A -> A -> Prop) : (forall x y, f x y = true <-> R y x) ->
  forall l k, all_equivalent f l k = true <-> Forall2 R k l.
Proof.
  intro H. induction l as [|x l IH]; intros [|y k]; cbn [all_equivalent]; try (split; [discriminate|inversion 1]); [split; [constructor|reflexivity]|].
  rewrite andb_true_iff, H, IH. split; [intros [A1 A2]; now constructor|inversion 1; auto].
Qed.
Lemma part_iff o x y : part_equivalent o x y = true <-> compares o y x.
Proof.
  destruct x as [a b ap pol|p d [[hd hw] hk] pol|p w h r [[hd hw] hk] pol|p n r t hs pol|l pol],
    y as [a' b' ap' pol'|p' d' [[hd' hw'] hk'] pol'|p' w' h' r' [[hd' hw'] hk'] pol'|p' n' r' t' hs' pol'|l' pol'];
    cbn [part_equivalent compares hole_diameter fst]; try (split; [discriminate|contradiction]).
  - apply line_iff.
  - rewrite !andb_true_iff, qceq_iff, oeq_iff, nearly_iff. tauto.
  - rewrite !andb_true_iff, !qceq_iff, oeq_iff, nearly_iff. tauto.
  - rewrite !andb_true_iff, qceq_iff, Z.eqb_eq, nearly_iff. tauto.
  - apply all_iff. intros a b. apply line_iff.
Qed.
Lemma group_iff g k o : group_equivalent g k o = true <-> Forall2 (compares o) (gr_parts k) (gr_parts g).
Proof. unfold group_equivalent. apply all_iff. intros. apply part_iff. Qed.
Lemma looks_compares o y x : looks_like o y x -> compares o y x.
Proof.
  destruct y as [a b ap pol|p d [[hd hw] hk] pol|p w h r [[hd hw] hk] pol|p n r t hs pol|l pol],
    x as [a' b' ap' pol'|p' d' [[hd' hw'] hk'] pol'|p' w' h' r' [[hd' hw'] hk'] pol'|p' n' r' t' hs' pol'|l' pol']; cbn; try contradiction; try tauto.
  - intros (A & B & [= -> -> ->] & D). auto.
  - intros (A & B & C & D & [= -> -> ->] & E). auto.
Qed.
Lemma Forall2_imp {A B} (R S : A -> B -> Prop) l k : (forall a b, R a b -> S a b) -> Forall2 R l k -> Forall2 S l k.
Proof. intros H. induction 1; constructor; auto. Qed.
Lemma compared_lemma k g : group_equivalent g k (displacement k g) = true <-> same_compared k g.
Proof. exact (group_iff g k (displacement k g)). Qed.
Lemma looks_lemma k g : same_looks k g -> group_equivalent g k (displacement k g) = true.
Proof. intro F. apply group_iff. eapply Forall2_imp; [|exact F]. intros. now apply looks_compares. Qed.

(** ** The header *)
Inductive entry := EKey (k : key) (d : Z) | EMac (h : text) (d : Z) (g : group).
Definition estmts (e : entry) : list stmt := match e with EKey k d => [definition_stmt k d] | EMac h d g => macro_stmts h d g end.
Definition ecode (e : entry) : Z := match e with EKey _ d | EMac _ d _ => d end.
Definition ekey (e : entry) : list (key * Z) := match e with EKey k d => [(k, d)] | EMac _ _ _ => [] end.
(** The statements that the reader makes of an entry. *)
Definition eread (e : entry) (l : list stmt) : Prop :=
  match e with
  | EKey k d => l = [definition_stmt k d]
  | EMac h d g => exists m i, l = [SAM h m []; SAD d h [[]]] /\ read_macro m = Ok i /\ am_build i [] = Ok (gr_prims g)
  end.
(** Names that cannot be mistaken for a standard aperture. *)
Definition good_name (h : text) : Prop := exists r, h = "X"%char :: r /\ r <> [] /\ Forall (fun c => In c (letter ++ T "0123456789+-")) r.
Definition named (e : entry) : Prop := match e with EMac h _ _ => good_name h | _ => True end.
Lemma good_macro_name h : good_name h -> macro_name h.
Proof. intros (r & -> & N & F). split; [|auto]. unfold letter. cbn. do 49 right. auto. Qed.
Lemma hash_good digits x l acc : name_digits digits -> Forall (fun c => In c (letter ++ T "0123456789+-")) acc ->
  exists r, hash_loop digits ("X"%char :: acc) (x :: l) = "X"%char :: r /\ r <> [] /\ Forall (fun c => In c (letter ++ T "0123456789+-")) r.
Proof.
  intro D. revert x acc. 
  assert (G : forall x acc, Forall (fun c => In c (letter ++ T "0123456789+-")) acc -> Forall (fun c => In c (letter ++ T "0123456789+-")) (acc ++ class_initial x ++ digits x)).
  { intros x acc A. apply Forall_app. split; [exact A|]. apply Forall_app. split; [|apply D].
    assert (K : forall c, existsb (Ascii.eqb c) (letter ++ T "0123456789+-") = true -> In c (letter ++ T "0123456789+-")).
    { intros c H. apply existsb_exists in H as (y & I & E). apply Ascii.eqb_eq in E. now subst. }
    destruct x; (apply Forall_cons; [now apply K|constructor]). }
  induction l as [|y l IH]; intros x acc A; cbn [hash_loop].
  - exists (acc ++ class_initial x ++ digits x). split; [destruct (Nat.ltb _ _); reflexivity|]. split; [destruct acc, x; discriminate|now apply G].
  - destruct (Nat.ltb 20 _).
    + exists (acc ++ class_initial x ++ digits x). split; [reflexivity|]. split; [destruct acc, x; discriminate|now apply G].
    + apply (IH y (acc ++ class_initial x ++ digits x)). now apply G.
Qed.
Lemma hash_named digits g : name_digits digits -> gr_parts g <> [] -> good_name (hash_amacro digits g).
Proof.
  intros D N. unfold hash_amacro. destruct (gr_parts g) as [|x l]; [contradiction|].
  exact (hash_good digits x l [] D (Forall_nil _)).
Qed.

Section Read.
Variable fc : centre_fun.
Variable st : pset.
Let u := p_units st.
Lemma definition_macro past h d m i ps l : good_name h -> read_macro m = Ok i -> eval_macro [] i (PSeq []) = Ok l -> primitives_of (fst l) = Ok ps ->
  exists k, primitives_of k = Ok ps /\ definition (SAM h m d :: past) h [] = Some (ShMacro k).
Proof.
  intros (r & -> & N & _) R E P. exists (fst l). split; [exact P|]. unfold definition.
  assert (T0 : forall t, teq ("X"%char :: r) ("C"%char :: t) = false) by (intro t; apply teq_false; discriminate).
  change (teq ("X"%char :: r) (T "C")) with false. change (teq ("X"%char :: r) (T "R")) with false. change (teq ("X"%char :: r) (T "O")) with false. change (teq ("X"%char :: r) (T "P")) with false.
  cbn [macro_body]. assert (Q : teq ("X"%char :: r) ("X"%char :: r) = true) by now apply teq_true. rewrite Q, R, E. destruct l as [l e]. reflexivity.
Qed.
Lemma build_parts i ps : am_build i [] = Ok ps -> exists l, eval_macro [] i (PSeq []) = Ok l /\ primitives_of (fst l) = Ok ps.
Proof. unfold am_build. destruct (eval_macro [] i (PSeq [])) as [l|]; [|discriminate]. cbn [bind]. intro H. exists l. auto. Qed.
Definition head (L : list (list stmt)) : list stmt := base true st ++ List.concat L.
Lemma head_snoc L x : head (L ++ [x]) = head L ++ x.
Proof. unfold head. rewrite concat_app. change (List.concat [x]) with (x ++ []). now rewrite app_nil_r, app_assoc. Qed.
Lemma head_units E L : Forall2 eread E L -> current_units (rev (head L)) = u.
Proof.
  revert L. induction E as [|e E IH] using rev_ind; intros L H; [inversion H; reflexivity|].
  apply Forall2_app_inv_l in H as (L1 & L2 & H1 & H2 & ->). inversion H2 as [|? x ? ? X Y]; subst. inversion Y; subst. rewrite head_snoc, rev_app_distr.
  destruct e as [k d|h d g]; cbn [eread] in X.
  - subst x. destruct (definition_is_SAD k d) as (n & m & ->). exact (IH L1 H1).
  - destruct X as (m & i & -> & _). exact (IH L1 H1).
Qed.
Lemma head_plain E L : Forall2 eread E L -> in_region (rev (head L)) = Off /\ contour fc (rev (head L)) = [] /\ current_polarity (rev (head L)) = Dark.
Proof.
  revert L. induction E as [|e E IH] using rev_ind; intros L H; [inversion H; repeat split|].
  apply Forall2_app_inv_l in H as (L1 & L2 & H1 & H2 & ->). inversion H2 as [|? x ? ? X Y]; subst. inversion Y; subst. rewrite head_snoc, rev_app_distr.
  destruct (IH L1 H1) as (I1 & I2 & I3). destruct e as [k d|h d g]; cbn [eread] in X.
  - subst x. destruct (definition_is_SAD k d) as (n & m & ->). cbn [rev app]. split; [exact I1|]. split; [|exact I3]. cbn [contour action]. rewrite I1. exact I2.
  - destruct X as (m & i & -> & _). cbn [rev app]. split; [exact I1|]. split; [|exact I3]. cbn [contour action]. change (in_region (SAM h m [] :: rev (head L1))) with (in_region (rev (head L1))). rewrite I1. exact I2.
Qed.
Lemma head_image E L : Forall2 eread E L -> image fc [] (head L) = Some [].
Proof.
  intro H. assert (G : forall past, image fc past (List.concat L) = Some []).
  { induction H as [|e x E L X H IH]; intro past; [reflexivity|]. cbn [List.concat]. change (Some []) with (Some (@nil mark ++ [])). apply image_app; [|apply IH].
    destruct e as [k d|h d g]; cbn [eread] in X.
    - subst x. destruct (definition_is_SAD k d) as (n & m & ->). reflexivity.
    - destruct X as (m & i & -> & _). reflexivity. }
  unfold head. cbn [base app image marks action]. now rewrite G.
Qed.
Lemma head_key E L : Forall2 eread E L -> NoDup (map ecode E) -> forall k d s, In (EKey k d) E -> key_is k s ->
  aperture_of d (rev (head L)) = Some (mkObj s None Dark u).
Proof.
  revert L. induction E as [|e E IH] using rev_ind; intros L H N k d s I K; [contradiction|].
  apply Forall2_app_inv_l in H as (L1 & L2 & H1 & H2 & ->). inversion H2 as [|? x ? ? X Y]; subst. inversion Y; subst. rewrite head_snoc, rev_app_distr.
  rewrite map_app in N. pose proof (NoDup_remove_1 _ _ _ N) as N1. pose proof (NoDup_remove_2 _ _ _ N) as N2. rewrite app_nil_r in N1, N2.
  apply in_app_or in I as [I|[->|[]]].
  - assert (D : ecode e <> d) by (intro Q; apply N2; rewrite Q; apply in_map_iff; now exists (EKey k d)). specialize (IH L1 H1 N1 k d s I K).
    destruct e as [k' d'|h d' g]; cbn [eread ecode] in X, D.
    + subst x. destruct (definition_is_SAD k' d') as (n & m & ->). cbn [rev app aperture_of]. destruct (Z.eq_dec d' d); [contradiction|exact IH].
    + destruct X as (m & i & -> & _). cbn [rev app aperture_of]. destruct (Z.eq_dec d' d); [contradiction|exact IH].
  - cbn [eread] in X. subst x. destruct (define_key (rev (head L1)) k d s K) as (n & m & -> & D). cbn [rev app aperture_of]. destruct (Z.eq_dec d d) as [_|Q]; [|congruence].
    cbn [hd]. now rewrite D, (head_units E L1 H1).
Qed.
Lemma head_macro E L : Forall2 eread E L -> NoDup (map ecode E) -> Forall named E -> forall h d g, In (EMac h d g) E ->
  exists l, primitives_of l = Ok (gr_prims g) /\ aperture_of d (rev (head L)) = Some (mkObj (ShMacro l) None Dark u).
Proof.
  revert L. induction E as [|e E IH] using rev_ind; intros L H N G h d g I; [contradiction|].
  apply Forall2_app_inv_l in H as (L1 & L2 & H1 & H2 & ->). inversion H2 as [|? x ? ? X Y]; subst. inversion Y; subst. rewrite head_snoc, rev_app_distr.
  rewrite map_app in N. pose proof (NoDup_remove_1 _ _ _ N) as N1. pose proof (NoDup_remove_2 _ _ _ N) as N2. rewrite app_nil_r in N1, N2.
  apply Forall_app in G as [G1 G2]. apply in_app_or in I as [I|[->|[]]].
  - assert (D : ecode e <> d) by (intro Q; apply N2; rewrite Q; apply in_map_iff; now exists (EMac h d g)). specialize (IH L1 H1 N1 G1 h d g I).
    destruct e as [k' d'|h' d' g']; cbn [eread ecode] in X, D.
    + subst x. destruct (definition_is_SAD k' d') as (n & m & ->). cbn [rev app aperture_of]. destruct (Z.eq_dec d' d); [contradiction|exact IH].
    + destruct X as (m & i & -> & _). cbn [rev app aperture_of]. destruct (Z.eq_dec d' d); [contradiction|exact IH].
  - inversion G2 as [|? ? G3 _]; subst. cbn [named] in G3. destruct X as (m & i & -> & R & B). destruct (build_parts i _ B) as (l & E1 & E2).
    destruct (definition_macro (rev (head L1)) h [] m i _ l G3 R E1 E2) as (k & P & D). exists k. split; [exact P|].
    cbn [rev app aperture_of]. destruct (Z.eq_dec d d) as [_|Q]; [|congruence]. cbn [hd]. rewrite D.
    change (current_units (SAM h m [] :: rev (head L1))) with (current_units (rev (head L1))). now rewrite (head_units E L1 H1).
Qed.
Lemma head_ok E L rest : Forall2 eread E L -> Forall named E -> (forall past, definitions_ok past rest) -> forall past, definitions_ok past (List.concat L ++ rest).
Proof.
  intros H. induction H as [|e x E L X H IH]; intros G R past; [apply R|]. inversion G as [|? ? G1 G2]; subst. cbn [List.concat]. rewrite <- app_assoc. destruct e as [k d|h d g]; cbn [eread] in X.
  - subst x. destruct (define_some past k d) as (n & m & s & -> & D). split; [|now apply IH]. exists m, [], s. auto.
  - destruct X as (m & i & -> & R1 & B). cbn [app definitions_ok]. split; [now exists i|]. destruct (build_parts i _ B) as (l & E1 & E2).
    destruct (definition_macro past h [] m i _ l G1 R1 E1 E2) as (k & P & D). split; [|now apply IH]. exists [], [], (ShMacro k). auto.
Qed.
Lemma head_sync E L F : Forall2 eread E L -> NoDup (map ecode E) -> (forall k d, In (k, d) F -> In (EKey k d) E) ->
  sync fc F u Off [] (rev (head L)) (new_context st).
Proof.
  intros H N I. destruct (head_plain E L H) as (P1 & P2 & P3).
  split; cbn [new_context c_pol c_pos c_func c_quad c_dcode or_else]; auto; try discriminate; [now apply head_units with E|].
  intros k d s J K. apply (head_key E L H N k d s); auto.
Qed.
End Read.
