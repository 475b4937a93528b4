(** Proofs about which tools are plated. *)
From Verif Require Import PyBase QcLib NumModel NumSpec NumProofs GerberText ExcellonModel ExcellonFile ExcellonSpec ExcellonProofs ExcellonRun
  ToolModel ToolSpec ToolProofs HeadSpec HeadRun PlateSpec.
From Coq Require Import QArith Qcanon Lia.
Open Scope list_scope.

(** ** Notes *)
Lemma noted_header i d z ns xs es ts : noted i d z ns xs es ts -> header i d z xs es ts.
Proof.
  intros H. induction H; [apply header_none|now apply header_define|now apply header_remark|apply header_plated; auto|apply header_plated; auto|now apply header_size|now apply header_tool_size].
Qed.
Lemma sizes_app a b : sizes (a ++ b) = sizes a ++ sizes b.
Proof. apply flat_map_app. Qed.
Lemma first_snoc n l k p : first n (l ++ [(k, p)]) = match first n l with Some q => Some q | None => if (k =? n)%Z then Some p else None end.
Proof. induction l as [|[j q] l IH]; [reflexivity|]. cbn. destruct (j =? n)%Z; [reflexivity|exact IH]. Qed.
Definition type_after (now : option plating) (ns : list note) : option plating := fold_left in_force ns now.
Lemma ruling_snoc n x : forall ns now, ruling n now (ns ++ [x]) =
  match x with
  | NDefine k => if (k =? n)%Z then Some (type_after now ns, []) else option_map (fun r => (fst r, snd r ++ [x])) (ruling n now ns)
  | _ => option_map (fun r => (fst r, snd r ++ [x])) (ruling n now ns)
  end.
Proof.
  induction ns as [|y ns IH]; intros now; [cbn; destruct x; try reflexivity; destruct (_ =? _)%Z; reflexivity|].
  cbn [app ruling]. rewrite IH. cbn [type_after fold_left]. fold (type_after (in_force now y) ns).
  destruct x as [p|k|k p]; [| destruct (k =? n)%Z; [reflexivity|]|];
    (destruct (ruling n (in_force now y) ns) as [[a l]|]; cbn [option_map]; [reflexivity|]; destruct y as [p'|k'|k' p']; try reflexivity; destruct (k' =? n)%Z; reflexivity).
Qed.

(** ** The plating of the tool that a number stands for *)
Definition pv (st : xst) (n : Z) : option plating :=
  match lookup st n with
  | Some l => match tget (x_store st) l with Some t => t_plated t | None => None end
  | None => None
  end.

(** ** The body *)
Section Calm.
Variable holesize : unit_ -> text -> res (option tool).
Inductive calm : xst -> xst -> Prop :=
| calm_same a b : same_core a b /\ x_prev a = x_prev b /\ x_state a = x_state b -> calm a b
| calm_trans a b c : calm a b -> calm b c -> calm a c
| calm_adopt n l se a : dget n (x_tools a) = None -> lookup a n = Some l ->
    calm a (with_tools (tset (x_store a) l (with_settings se)) (dput n l (x_tools a)) a)
| calm_select n l a : dget n (x_tools a) = Some l -> calm a (with_active (Some l) a)
| calm_none a : calm a (with_active None a)
| calm_define t a : t_hits t = 0%nat -> lookup a (t_num t) = None -> t_plated t = None ->
    calm a (with_tools (x_store a ++ [t]) (dput (t_num t) (List.length (x_store a)) (x_tools a)) a)
| calm_hit h l a : x_active a = Some l -> hit_tool h = Some l ->
    calm a (with_hits (tset (x_store a) l count_hit) (x_hits a ++ [h]) a).
Lemma calm_ev a b : calm a b -> ev holesize false a b.
Proof.
  intros H. induction H as [a b H|a b c H IH H' IH'|n l se a H L|n l a H|a|t a H L P|h l a H H'].
  - apply ev_same. apply H.
  - now apply ev_trans with b.
  - apply ev_adopt; [exact H|]. unfold lookup in L. rewrite H in L. destruct (dget n (x_ctools a)); auto.
  - now apply (ev_select _ _ n).
  - apply ev_none.
  - now apply ev_define.
  - now apply ev_hit.
Qed.
Record rooted (P : Z -> option plating) (st : xst) : Prop := mkRooted {
  r_wf : wf st;
  r_pv : forall n, pv st n = P n;
  r_act : forall l, x_active st = Some l -> exists n, dget n (x_tools st) = Some l;
  r_hits : forall h l, In h (x_hits st) -> hit_tool h = Some l -> exists n, dget n (x_tools st) = Some l }.
Lemma pv_tset st n l f : (forall t, t_plated (f t) = t_plated t) -> lookup st n = Some l \/ lookup st n <> Some l ->
  match lookup st n with Some k => match tget (tset (x_store st) l f) k with Some t => t_plated t | None => None end | None => None end = pv st n.
Proof.
  intros F _. unfold pv. destruct (lookup st n) as [k|]; [|reflexivity]. destruct (Nat.eq_dec l k) as [->|N]; [|now rewrite tget_tset_other].
  destruct (tget (x_store st) k) as [t|] eqn:E; [now rewrite (tget_tset_same _ _ _ t E), F|].
  destruct (tget (tset (x_store st) k f) k) eqn:X; [|reflexivity]. exfalso. assert (Y : tget (tset (x_store st) k f) k <> None) by congruence.
  apply nth_error_Some in Y. rewrite tset_length in Y. apply nth_error_None in E. lia.
Qed.
Lemma calm_rooted P a b : calm a b -> rooted P a -> rooted P b.
Proof.
  intros H. induction H as [a b H|a b c H IH H' IH'|n l se a H L|n l a H|a|t a H L Pl|h l a H H']; intros R; auto.
  - assert (W : wf b) by (apply (ev_wf holesize false a); [apply ev_same; apply H|apply R]). destruct R as [A1 A2 A3 A4]. destruct H as ((C1 & C2 & C3 & C4 & C5 & C6) & _). constructor; [exact W| | |].
    + intros n. rewrite <- A2. unfold pv, lookup. now rewrite C1, C2, C3, C4.
    + rewrite <- C5, <- C2. exact A3.
    + rewrite <- C6, <- C2. exact A4.
  - assert (W := ev_wf _ _ _ _ (calm_ev _ _ (calm_adopt n l se a H L)) (r_wf _ _ R)). destruct R as [A1 A2 A3 A4].
    assert (D : forall k j, dget k (x_tools a) = Some j -> dget k (dput n l (x_tools a)) = Some j) by (intros k j E; rewrite dget_dput_other; [exact E|intros ->; congruence]).
    constructor; [exact W| | |].
    + intros k. rewrite <- A2. set (s := with_tools _ _ a). assert (LK : lookup s k = lookup a k).
      { unfold s, lookup. cbn. destruct (Z.eq_dec n k) as [->|NE]; [|now rewrite dget_dput_other by exact NE]. rewrite dget_dput_same. unfold lookup in L. now rewrite H in *. }
      unfold pv at 1. rewrite LK. apply pv_tset; [intros []; reflexivity|]. destruct (lookup a k) as [j|]; [|right; discriminate]. destruct (Nat.eq_dec j l); [left; congruence|right; congruence].
    + intros j E. destruct (A3 j E) as [m Em]. exists m. cbn. auto.
    + intros h j I E. destruct (A4 h j I E) as [m Em]. exists m. cbn. auto.
  - assert (W := ev_wf _ _ _ _ (calm_ev _ _ (calm_select n l a H)) (r_wf _ _ R)). destruct R as [A1 A2 A3 A4]. constructor; [exact W|exact A2| |exact A4].
    cbn. intros j [= <-]. eauto.
  - assert (W := ev_wf _ _ _ _ (calm_ev _ _ (calm_none a)) (r_wf _ _ R)). destruct R as [A1 A2 A3 A4]. constructor; [exact W|exact A2| |exact A4]. discriminate.
  - assert (W := ev_wf _ _ _ _ (calm_ev _ _ (calm_define t a H L Pl)) (r_wf _ _ R)). destruct R as [A1 A2 A3 A4].
    assert (N : dget (t_num t) (x_tools a) = None) by (unfold lookup in L; destruct (dget (t_num t) (x_tools a)); [discriminate|reflexivity]).
    assert (D : forall k j, dget k (x_tools a) = Some j -> dget k (dput (t_num t) (List.length (x_store a)) (x_tools a)) = Some j) by (intros k j E; rewrite dget_dput_other; [exact E|intros <-; congruence]).
    constructor; [exact W| | |].
    + intros k. rewrite <- A2. set (s := with_tools _ _ a). destruct (Z.eq_dec (t_num t) k) as [<-|NE].
      * unfold pv at 2. rewrite L. unfold pv, lookup, s. cbn. rewrite dget_dput_same, tget_app_new. exact Pl.
      * assert (LK : lookup s k = lookup a k) by (unfold s, lookup; cbn; now rewrite dget_dput_other by exact NE).
        unfold pv. rewrite LK. destruct (lookup a k) as [j|] eqn:Ej; [|reflexivity]. destruct (lookup_some a k j A1 Ej) as (tj & Etj & _). unfold s. cbn. rewrite tget_app_old by congruence. reflexivity.
    + intros j E. destruct (A3 j E) as [m Em]. exists m. cbn. auto.
    + intros h j I E. destruct (A4 h j I E) as [m Em]. exists m. cbn. auto.
  - assert (W := ev_wf _ _ _ _ (calm_ev _ _ (calm_hit h l a H H')) (r_wf _ _ R)). destruct R as [A1 A2 A3 A4]. constructor; [exact W| |exact A3|].
    + intros k. rewrite <- A2. unfold pv at 1. change (lookup (with_hits (tset (x_store a) l count_hit) (x_hits a ++ [h]) a) k) with (lookup a k).
      apply pv_tset; [intros []; reflexivity|]. destruct (lookup a k) as [j|]; [|right; discriminate]. destruct (Nat.eq_dec j l); [left; congruence|right; congruence].
    + intros h' j I E. cbn in I. apply in_app_or in I as [I|[<-|[]]]; [exact (A4 h' j I E)|]. assert (j = l) by congruence. subst. exact (A3 l H).
Qed.

Lemma calm_state a b : calm a b -> x_prev a = x_prev b /\ x_state a = x_state b.
Proof. intros H. induction H as [a b H|a b c H IH H' IH'|n l se a H L|n l a H|a|t a H L Pl|h l a H H']; auto. { apply H. } destruct IH, IH'. split; congruence. Qed.
Ltac same := apply calm_same; repeat split.
Ltac ok H := let H' := fresh in rename H into H'; pose proof (ok_inj _ _ H') as H; clear H'; subst.
Lemma get_tool_calm n st o st' : get_tool n st = Ok (o, st') -> calm st st' /\ match o with Some l => dget n (x_tools st') = Some l | None => lookup st' n = None end.
Proof.
  unfold get_tool. destruct (dget n (x_tools st)) as [l|] eqn:E.
  { intros H. injection H as <- <-. split; [same|]. exact E. }
  assert (A : forall l, lookup st n = Some l -> (do s <- adopt n l st; Ok (Some l, s)) = Ok (o, st') -> calm st st' /\ match o with Some l => dget n (x_tools st') = Some l | None => lookup st' n = None end).
  { intros l D H. apply bind_ok in H as (s & H & K). unfold adopt in H. apply bind_ok in H as (se & S & H). ok H. injection K as <- <-.
    split; [now apply calm_adopt|]. cbn. apply dget_dput_same. }
  assert (LK : lookup st n = match dget n (x_ctools st) with Some l => Some l | None => dget n (x_ext st) end) by (unfold lookup; rewrite E; reflexivity).
  destruct (dget n (x_ctools st)) as [l|] eqn:E1; [intros H; apply (A l); auto|].
  destruct (dget n (x_ext st)) as [l|] eqn:E2; [intros H; apply (A l); auto|].
  intros H. injection H as <- <-. split; [same|exact LK].
Qed.
Lemma ensure_tool_calm st st' : ensure_tool st = Ok st' -> calm st st'.
Proof.
  unfold ensure_tool. destruct (x_active st) as [l|] eqn:E.
  - intros H. ok H. same.
  - intros H. apply bind_ok in H as ((o & s) & H & K). ok K. cbn. destruct (get_tool_calm _ _ _ _ H) as [G A].
    apply calm_trans with s; [exact G|]. destruct o as [l|]; [|apply calm_none]. now apply (calm_select 1 l).
Qed.
Lemma add_hit_calm h st st' : add_hit h st = Ok st' -> hit_tool h = x_active st -> calm st st'.
Proof. unfold add_hit. destruct (x_active st) as [l|] eqn:E; [|discriminate]. intros H K. ok H. now apply calm_hit. Qed.
Lemma repeat_hits_calm n : forall dx dy st st', repeat_hits n dx dy st = Ok st' -> calm st st'.
Proof.
  induction n as [|n IH]; intros dx dy st st' H; cbn [repeat_hits] in H; [ok H; same|].
  apply bind_ok in H as (s & H & K). apply IH in K. eapply calm_trans; [|exact K].
  eapply calm_trans; [|eapply add_hit_calm; [exact H|reflexivity]]. same.
Qed.
Lemma select_line_calm line st st' : select_line line st = Ok st' -> calm st st'.
Proof.
  unfold select_line. intros H. apply bind_ok in H as ((n & c) & _ & H). cbn in H. destruct (n =? 0)%Z; [ok H; same|].
  apply bind_ok in H as ((o & s) & G & H). destruct (get_tool_calm _ _ _ _ G) as [E A].
  assert (E0 : calm st s) by (eapply calm_trans; [|exact E]; same).
  eapply calm_trans; [exact E0|]. destruct o as [l|]; [ok H; now apply (calm_select n)|].
  apply bind_ok in H as (se & _ & H). ok H.
  set (d := match xs_units se with Inch => _ | Metric => _ end).
  eapply calm_trans; [apply (calm_define (plain_tool n d se)); [reflexivity|exact A|reflexivity]|].
  match goal with |- calm ?a _ => apply calm_trans with (with_active (Some (List.length (x_store s))) a) end; [|same].
  apply (calm_select n). cbn. apply dget_dput_same.
Qed.
Lemma coord_line_calm line st st' : x_state st = SDrill -> coord_line line st = Ok st' -> calm st st'.
Proof.
  unfold coord_line. intros X H. apply bind_ok in H as (se & _ & H). apply bind_ok in H as (xy & _ & H).
  match goal with H : match x_state ?a with _ => _ end = _ |- _ => set (s := a) in *; assert (E0 : calm st s) by (unfold s; same) end.
  assert (D : x_state s = SDrill) by exact X. rewrite D in H.
  apply bind_ok in H as (s1 & E1 & H). eapply calm_trans; [exact E0|]. eapply calm_trans; [eapply ensure_tool_calm; exact E1|].
  eapply add_hit_calm; [exact H|reflexivity].
Qed.
Lemma says_calm i d z x line st st' : says i d z x line -> x_prev st = [] -> x_state st = SDrill -> parse_line holesize st line = Ok st' -> calm st st'.
Proof.
  intros Sy P X H. assert (HD : is_header st = false) by (unfold is_header; now rewrite X).
  assert (SEL : forall ds, digit_string ds -> parse_line holesize st ("T"%char :: ds) = Ok st' -> calm st st').
  { intros ds Dd E. rewrite dispatch_t in E; [|exact P|apply nums_not_in; [now apply digits_nums|reflexivity]..]. rewrite HD in E. now apply select_line_calm in E. }
  destruct Sy as [n ds Dd Nd Ld En|n ds cs Dd Ld En Dc Lc| | | |a b tx ty Fx Fy N|k ds a b tx ty Dd Nd En Fx Fy].
  - apply (SEL ds Dd H).
  - apply (SEL (ds ++ cs)); [apply Forall_app; auto|exact H].
  - rewrite dispatch_g90 in H by exact P. ok H. same.
  - rewrite dispatch_off in H by exact P. ok H. same.
  - rewrite dispatch_on in H by exact P. ok H. same.
  - assert (HC : exists c r, tx ++ ty = c :: r /\ (c = "X"%char \/ c = "Y"%char) /\ ~ In "I"%char r /\ ~ In "M"%char r /\ ~ In "G"%char r).
    { assert (C : forall c, num_char c = false -> ~ In c (T "X") -> ~ In c (T "Y") -> ~ In c (tx ++ ty)).
      { intros c H1 H2 H3 I. apply in_app_or in I as [I|I]; [exact (field_chars i d z _ _ _ c Fx H1 H2 I)|exact (field_chars i d z _ _ _ c Fy H1 H3 I)]. }
      pose proof (C "I"%char eq_refl ltac:(cbn; intuition discriminate) ltac:(cbn; intuition discriminate)) as C1.
      pose proof (C "M"%char eq_refl ltac:(cbn; intuition discriminate) ltac:(cbn; intuition discriminate)) as C2.
      pose proof (C "G"%char eq_refl ltac:(cbn; intuition discriminate) ltac:(cbn; intuition discriminate)) as C3.
      assert (Y : exists c r, tx ++ ty = c :: r /\ (c = "X"%char \/ c = "Y"%char)).
      { destruct Fx as [|tx x Rx]; [destruct Fy as [|ty y Ry]; [destruct N; contradiction|]|]; cbn; eauto. }
      destruct Y as (c & r & E & Hc). exists c, r. rewrite E in *. split; [reflexivity|]. split; [exact Hc|].
      repeat split; intros I; [apply C1|apply C2|apply C3]; now right. }
    destruct HC as (c & r & E & Hc & NI & NM & NG). rewrite E in *. rewrite dispatch_xy in H by auto. exact (coord_line_calm _ _ _ X H).
  - assert (C : forall c, num_char c = false -> ~ In c (T "X") -> ~ In c (T "Y") -> ~ In c (ds ++ tx ++ ty)).
    { intros c H1 H2 H3 I. apply (nums_letters ds) in I; [|now apply digits_nums|exact H1]. apply in_app_or in I as [I|I]; [exact (field_chars i d z _ _ _ c Fx H1 H2 I)|exact (field_chars i d z _ _ _ c Fy H1 H3 I)]. }
    cbn [T list_ascii_of_string app] in H. rewrite dispatch_r in H; [|exact P|exact HD|apply C; cbn; intuition discriminate..].
    apply bind_ok in H as (se & _ & H). apply bind_ok in H as (((m & x) & y) & _ & H).
    eapply calm_trans; [|eapply repeat_hits_calm; exact H]. same.
Qed.
Lemma body_calm i d z prog lines : Forall2 (says i d z) prog lines -> forall st st', x_prev st = [] -> x_state st = SDrill -> parse_lines holesize st lines = Ok st' -> calm st st'.
Proof.
  intros F. induction F as [|x line prog lines Sx F IH]; intros st st' P X H; cbn [parse_lines] in H; [ok H; same|].
  apply bind_ok in H as (s & H & K). assert (C := says_calm i d z x line st s Sx P X H). destruct (calm_state _ _ C) as [C1 C2].
  apply calm_trans with s; [exact C|]. apply IH; [congruence|congruence|exact K].
Qed.
End Calm.

(** ** The header *)
Record plates (ext : list tool) (ns : list note) (st : xst) : Prop := mkPlates {
  p_now : x_plated st = type_after None ns;
  p_tools : forall n, match ruling n None ns with
                      | None => dget n (x_tools st) = None
                      | Some _ => exists l t, dget n (x_tools st) = Some l /\ tget (x_store st) l = Some t /\ t_plated t = plated_as ns ext n
                      end;
  p_ctools : forall n, match latest n (sizes ns) with
                       | None => dget n (x_ctools st) = None
                       | Some p => exists l t, dget n (x_ctools st) = Some l /\ tget (x_store st) l = Some t /\ t_plated t = Some p
                       end;
  p_ext : forall n, match dget n (x_ext st) with
                    | None => beforehand ext n = None
                    | Some l => exists t, tget (x_store st) l = Some t /\ t_plated t = beforehand ext n
                    end;
  p_apart : forall n m l, dget n (x_tools st) = Some l -> dget m (x_ctools st) <> Some l /\ dget m (x_ext st) <> Some l }.

Lemma type_after_snoc ns x : type_after None (ns ++ [x]) = in_force (type_after None ns) x.
Proof. unfold type_after. now rewrite fold_left_app. Qed.
Lemma dict_tget s dct n l : dict_ok s dct -> dget n dct = Some l -> exists t, tget s l = Some t /\ t_num t = n.
Proof. intros [_ H] E. apply H. now apply dget_in. Qed.
Lemma dict_below s dct n l : dict_ok s dct -> dget n dct = Some l -> (l < List.length s)%nat.
Proof. intros H E. destruct (dict_tget _ _ _ _ H E) as (t & X & _). apply nth_error_Some. unfold tget in X. congruence. Qed.
Lemma plated_other ns x ext n : match x with NSize k _ | NDefine k => k <> n | NType _ => True end -> plated_as (ns ++ [x]) ext n = plated_as ns ext n.
Proof.
  intros H. assert (S : latest n (sizes (ns ++ [x])) = latest n (sizes ns)).
  { rewrite sizes_app. destruct x as [p|k|k p]; cbn [sizes flat_map app]; rewrite ?app_nil_r; try reflexivity. rewrite latest_snoc. apply Z.eqb_neq in H. now rewrite H. }
  unfold plated_as. rewrite S, ruling_snoc. destruct x as [p|k|k p]; [| apply Z.eqb_neq in H; rewrite H|];
    (destruct (ruling n None ns) as [[[q|] later]|]; cbn [option_map fst snd]; try reflexivity; destruct (beforehand ext n); try reflexivity; rewrite sizes_app; cbn [sizes flat_map app]; rewrite ?app_nil_r; try reflexivity).
  rewrite first_snoc. apply Z.eqb_neq in H. rewrite H. now destruct (first n (sizes later)).
Qed.
Lemma ruling_other ns x n : match x with NDefine k => k <> n | _ => True end ->
  (ruling n None (ns ++ [x]) = None <-> ruling n None ns = None).
Proof. intros H. rewrite ruling_snoc. destruct x as [p|k|k p]; [|apply Z.eqb_neq in H; rewrite H|]; destruct (ruling n None ns); cbn; split; intros; congruence. Qed.

Lemma plates_define ext ns st t n : plates ext ns st -> wf st -> t_num t = n ->
  t_plated t = match x_plated st with
               | Some p => Some p
               | None => match dget n (x_ext st) with Some l => match tget (x_store st) l with Some e => t_plated e | None => None end | None => None end
               end ->
  plates ext (ns ++ [NDefine n]) (add_stmt (ETool (List.length (x_store st))) (with_tools (x_store st ++ [t]) (dput (t_num t) (List.length (x_store st)) (x_tools st)) st)).
Proof.
  intros [A1 A2 A3 A4 A5] W Tn Tp. assert (SZ : sizes (ns ++ [NDefine n]) = sizes ns) by (rewrite sizes_app; cbn; apply app_nil_r). constructor; cbn [x_plated x_tools x_ctools x_ext x_store add_stmt with_stmts with_tools].
  - rewrite type_after_snoc. exact A1.
  - intros m. rewrite Tn. destruct (Z.eq_dec n m) as [<-|NE].
    + rewrite ruling_snoc, Z.eqb_refl. exists (List.length (x_store st)), t. rewrite dget_dput_same, tget_app_new. split; [reflexivity|]. split; [reflexivity|].
      unfold plated_as. rewrite ruling_snoc, Z.eqb_refl. rewrite Tp, A1. destruct (type_after None ns) as [p|]; [reflexivity|]. cbn [sizes flat_map first].
      specialize (A4 n). destruct (dget n (x_ext st)) as [l|]; [|now rewrite A4]. destruct A4 as (t' & -> & ->). now destruct (beforehand ext n).
    + rewrite dget_dput_other by exact NE. rewrite plated_other by exact NE. specialize (A2 m). assert (R := ruling_other ns (NDefine n) m NE).
      destruct (ruling m None ns) as [r|]; destruct (ruling m None (ns ++ [NDefine n])) as [r'|]; try (destruct R as [R1 R2]; (discriminate (R1 eq_refl) || discriminate (R2 eq_refl))); [|exact A2].
      destruct A2 as (l & t' & E & E' & P'). exists l, t'. rewrite tget_app_old by congruence. auto.
  - intros m. rewrite SZ. specialize (A3 m). destruct (latest m (sizes ns)); [|exact A3]. destruct A3 as (l & t' & E & E' & P'). exists l, t'. rewrite tget_app_old by congruence. auto.
  - intros m. specialize (A4 m). destruct (dget m (x_ext st)); [|exact A4]. destruct A4 as (t' & E & P'). exists t'. rewrite tget_app_old by congruence. auto.
  - intros m k l E. destruct (Z.eq_dec (t_num t) m) as [<-|NE].
    + rewrite dget_dput_same in E. injection E as <-. split; intros X.
      * pose proof (dict_below _ _ _ _ (wf_ctools _ W) X). lia.
      * pose proof (dict_below _ _ _ _ (wf_ext _ W) X). lia.
    + rewrite dget_dput_other in E by exact NE. exact (A5 m k l E).
Qed.
Lemma plates_type ext ns st p c : plates ext ns st -> plates ext (ns ++ [NType p]) (with_plating (Some p) (add_stmt (EComment c) st)).
Proof.
  intros [A1 A2 A3 A4 A5]. assert (SZ : sizes (ns ++ [NType p]) = sizes ns) by (rewrite sizes_app; cbn; apply app_nil_r). constructor; cbn [x_plated x_tools x_ctools x_ext x_store add_stmt with_stmts with_plating]; auto.
  - rewrite type_after_snoc. reflexivity.
  - intros n. rewrite plated_other by exact Logic.I. specialize (A2 n). assert (R := ruling_other ns (NType p) n Logic.I).
    destruct (ruling n None ns) as [r|]; destruct (ruling n None (ns ++ [NType p])) as [r'|]; try (destruct R as [R1 R2]; (discriminate (R1 eq_refl) || discriminate (R2 eq_refl))); exact A2.
  - rewrite SZ. exact A3.
Qed.
Lemma plates_size ext ns st n p t c : plates ext ns st -> wf st -> t_num t = n -> t_plated t = Some p ->
  let h := match dget (t_num t) (x_tools st) with
           | Some l => tset (x_store st) l (fun e => match t_plated e with None => with_plated (t_plated t) e | Some _ => e end)
           | None => x_store st
           end in
  plates ext (ns ++ [NSize n p]) (with_ctools (h ++ [t]) (dput (t_num t) (List.length h) (x_ctools st)) (with_state SHeader (add_stmt (EComment c) st))).
Proof.
  intros [A1 A2 A3 A4 A5] W Tn Tp h. assert (LH : List.length h = List.length (x_store st)) by (unfold h; destruct (dget _ _); [apply tset_length|reflexivity]).
  assert (SZ : sizes (ns ++ [NSize n p]) = sizes ns ++ [(n, p)]) by (rewrite sizes_app; reflexivity).
  assert (OLD : forall l t', tget (x_store st) l = Some t' -> dget (t_num t) (x_tools st) <> Some l -> tget (h ++ [t]) l = Some t').
  { intros l t' E N. assert (X : tget h l = Some t') by (unfold h; destruct (dget (t_num t) (x_tools st)) as [k|]; [rewrite tget_tset_other by congruence|]; exact E). rewrite tget_app_old; congruence. }
  constructor; cbn [x_plated x_tools x_ctools x_ext x_store add_stmt with_stmts with_ctools with_state].
  - rewrite type_after_snoc. exact A1.
  - intros m. assert (R := ruling_other ns (NSize n p) m Logic.I). pose proof (A2 m) as A2m. destruct (Z.eq_dec n m) as [<-|NE].
    + rewrite ruling_snoc. unfold plated_as in *. rewrite ruling_snoc. destruct (ruling n None ns) as [[q later]|] eqn:ER; cbn [option_map fst snd]; [|exact A2m].
      destruct A2m as (l & t' & E & E' & P'). exists l. eexists. split; [exact E|]. split.
      { rewrite tget_app_old; [|unfold h; rewrite Tn, E, (tget_tset_same _ _ _ t' E'); discriminate]. unfold h. rewrite Tn, E, (tget_tset_same _ _ _ t' E'). reflexivity. }
      destruct q as [q|]; [rewrite P'; cbn; congruence|]. rewrite sizes_app. cbn [sizes flat_map app]. rewrite first_snoc, Z.eqb_refl.
      rewrite Tp. destruct (beforehand ext n) as [b|]; [rewrite P'; congruence|]. rewrite P'. destruct (first n (sizes later)); [congruence|reflexivity].
    + rewrite plated_other by exact NE. destruct (ruling m None ns) as [r|]; destruct (ruling m None (ns ++ [NSize n p])) as [r'|]; try (destruct R as [R1 R2]; (discriminate (R1 eq_refl) || discriminate (R2 eq_refl))); [|exact A2m].
      destruct A2m as (l & t' & E & E' & P'). exists l, t'. split; [exact E|]. split; [|exact P']. apply OLD; [exact E'|]. intros X.
      destruct (dict_tget _ _ _ _ (wf_tools _ W) X) as (t1 & Y1 & Z1). destruct (dict_tget _ _ _ _ (wf_tools _ W) E) as (t2 & Y2 & Z2). congruence.
  - intros m. rewrite SZ, latest_snoc. rewrite Tn. destruct (Z.eqb_spec n m) as [<-|NE].
    + exists (List.length h), t. rewrite dget_dput_same, tget_app_new. auto.
    + rewrite dget_dput_other by exact NE. specialize (A3 m). destruct (latest m (sizes ns)); [|exact A3]. destruct A3 as (l & t' & E & E' & P'). exists l, t'. split; [exact E|]. split; [|exact P'].
      apply OLD; [exact E'|]. intros X. destruct (A5 _ m l X) as [X1 _]. contradiction.
  - intros m. specialize (A4 m). destruct (dget m (x_ext st)) as [l|] eqn:E; [|exact A4]. destruct A4 as (t' & E' & P'). exists t'. split; [|exact P']. apply OLD; [exact E'|]. intros X. destruct (A5 _ m l X) as [_ X1]. contradiction.
  - intros m k l E. split; [|exact (proj2 (A5 m k l E))]. destruct (Z.eq_dec (t_num t) k) as [<-|NE].
    + rewrite dget_dput_same. intros [= X]. pose proof (dict_below _ _ _ _ (wf_tools _ W) E). lia.
    + rewrite dget_dput_other by exact NE. exact (proj1 (A5 m k l E)).
Qed.
Lemma plates_pv ext ns st n : plates ext ns st -> pv st n = plated_as ns ext n.
Proof.
  intros [A1 A2 A3 A4 A5]. specialize (A2 n). specialize (A3 n). specialize (A4 n). unfold pv, lookup. destruct (ruling n None ns) as [r|] eqn:E.
  - destruct A2 as (l & t & -> & -> & ->). reflexivity.
  - rewrite A2. unfold plated_as. rewrite E. destruct (latest n (sizes ns)) as [p|]; [destruct A3 as (l & t & -> & -> & ->); reflexivity|]. rewrite A3.
    destruct (dget n (x_ext st)) as [l|]; [destruct A4 as (t & -> & ->); reflexivity|now rewrite A4].
Qed.
Section HeadPlates.
Variable hs : unit_ -> text -> res (option tool).
Variables (i d : nat) (z : zkind).
Hypothesis Hr : readable i d.
Variables (u : unit_) (inc : bool) (ext : list tool).
Lemma plates_same ns st st' : plates ext ns st -> x_plated st' = x_plated st -> x_tools st' = x_tools st -> x_ctools st' = x_ctools st -> x_ext st' = x_ext st -> x_store st' = x_store st -> plates ext ns st'.
Proof. intros [A1 A2 A3 A4 A5] E1 E2 E3 E4 E5. constructor; rewrite ?E1, ?E2, ?E3, ?E4, ?E5; auto. Qed.
Lemma size_kept e t : hole_size e t -> t_plated (tool_for u e) = Some (e_plating (snd e)).
Proof. intros []; reflexivity. Qed.
Lemma head_plates ns xs es ts : noted i d z ns xs es ts -> es = [] \/ hs = ToolModel.holesize false -> forall defs notes os st, head i d z u inc ext defs notes st -> plates ext os st ->
  exists st', parse_lines hs st (map strip ts) = Ok st' /\ head i d z u inc ext (defs ++ xs) (notes ++ es) st' /\ plates ext (os ++ ns) st'.
Proof.
  intros H. induction H as [|x t ns xs es ts X H IH|t ns xs es ts R H IH|ns xs es ts H IH|ns xs es ts H IH|a b t e ns xs es ts A B X H IH|a b t e ns xs es ts A B X H IH]; intros HS defs notes os st S P.
  - exists st. rewrite !app_nil_r. auto.
  - cbn [map parse_lines]. rewrite (strip_nospace t) by (eapply defines_nospace; eassumption). destruct (head_define hs i d z Hr u inc ext defs notes st x t S X) as (s1 & E1 & S1).
    destruct (head_define_eq hs i d z Hr u inc ext defs notes st x t S X) as (t' & E1' & Tn & _ & Tp). rewrite E1. cbn [bind].
    assert (P1 : plates ext (os ++ [NDefine (d_num x)]) s1).
    { rewrite E1 in E1'. injection E1' as ->. apply plates_define; [exact P|apply S|exact Tn|exact Tp]. }
    destruct (IH HS _ _ _ s1 S1 P1) as (s2 & E2 & S2 & P2). exists s2. split; [exact E2|]. rewrite <- !app_assoc in S2, P2. auto.
  - cbn [map parse_lines]. destruct (head_remark hs i d z u inc ext defs notes st _ S (remark_strip _ R)) as (s1 & E1 & S1).
    destruct (remark_step hs st _ (g_prev _ _ _ _ _ _ _ _ _ S) (remark_strip _ R)) as (c & E1' & _). rewrite E1. cbn [bind]. apply (IH HS _ _ _ s1 S1).
    rewrite E1 in E1'. injection E1' as ->. apply (plates_same os st); auto.
  - cbn [map parse_lines]. change (strip (T ";TYPE=PLATED")) with (T ";TYPE=PLATED").
    destruct (head_plated hs i d z u inc ext defs notes st (T ";TYPE=PLATED") S (or_introl eq_refl)) as (s1 & E1 & S1). rewrite E1. cbn [bind].
    assert (P1 : plates ext (os ++ [NType PYes]) s1).
    { assert (E1' : parse_line hs st (T ";TYPE=PLATED") = Ok (with_plating (Some PYes) (add_stmt (EComment (T "TYPE=PLATED")) st))) by (cbn [T list_ascii_of_string]; rewrite dispatch_comment by apply S; reflexivity).
      rewrite E1 in E1'. injection E1' as ->. now apply plates_type. }
    destruct (IH HS _ _ _ s1 S1 P1) as (s2 & E2 & S2 & P2). exists s2. split; [exact E2|]. rewrite <- !app_assoc in P2. auto.
  - cbn [map parse_lines]. change (strip (T ";TYPE=NON_PLATED")) with (T ";TYPE=NON_PLATED").
    destruct (head_plated hs i d z u inc ext defs notes st (T ";TYPE=NON_PLATED") S (or_intror eq_refl)) as (s1 & E1 & S1). rewrite E1. cbn [bind].
    assert (P1 : plates ext (os ++ [NType PNo]) s1).
    { assert (E1' : parse_line hs st (T ";TYPE=NON_PLATED") = Ok (with_plating (Some PNo) (add_stmt (EComment (T "TYPE=NON_PLATED")) st))) by (cbn [T list_ascii_of_string]; rewrite dispatch_comment by apply S; reflexivity).
      rewrite E1 in E1'. injection E1' as ->. now apply plates_type. }
    destruct (IH HS _ _ _ s1 S1 P1) as (s2 & E2 & S2 & P2). exists s2. split; [exact E2|]. rewrite <- !app_assoc in P2. auto.
  - destruct HS as [HS|HS]; [discriminate|]. cbn [map parse_lines]. replace (T ";" ++ a ++ T " " ++ t ++ b) with (";"%char :: (a ++ T " ") ++ t ++ b) by (cbn; now rewrite <- app_assoc).
    rewrite (size_strip e) by assumption. assert (A' : blanks (a ++ T " ")) by (apply Forall_app; split; [exact A|repeat constructor]).
    assert (W : without ((a ++ T " ") ++ t)) by (apply without_app; [now apply without_blanks|eapply hole_size_without; eassumption]).
    assert (H1 : hs u ((a ++ T " ") ++ t) = Ok (Some (tool_for u e))) by (rewrite HS; apply holesize_says; rewrite <- (app_nil_r t); constructor; [exact A'|constructor|exact X]).
    assert (H2 : text_in (T " Holesize ") ((a ++ T " ") ++ t) = true) by (rewrite <- app_assoc; apply text_in_front; [discriminate|]; now apply (hole_size_named e)).
    destruct (head_size hs i d z u inc ext defs notes st e ((a ++ T " ") ++ t) S H1 H2 (without_in _ W) (without_head _ W)) as (s1 & E1 & S1).
    assert (E1' := head_size_eq hs i d z u inc ext defs notes st e ((a ++ T " ") ++ t) S H1 H2 (without_in _ W) (without_head _ W)).
    rewrite E1. cbn [bind]. assert (P1 : plates ext (os ++ [NSize (fst e) (e_plating (snd e))]) s1).
    { cbv zeta in E1'. rewrite E1 in E1'. apply ok_inj in E1'. rewrite E1'. refine (plates_size ext os st (fst e) _ (tool_for u e) _ P _ eq_refl (size_kept e t X)). apply S. }
    destruct (IH (or_intror HS) _ _ _ s1 S1 P1) as (s2 & E2 & S2 & P2). exists s2. split; [exact E2|]. rewrite <- !app_assoc in S2, P2. auto.
  - destruct HS as [HS|HS]; [discriminate|]. cbn [map parse_lines]. change (T ";" ++ a ++ (T "T" ++ t) ++ b) with (";"%char :: a ++ (T "T" ++ t) ++ b).
    rewrite (size_strip e) by assumption.
    assert (W : without (a ++ (T "T" ++ t))) by (apply without_app; [now apply without_blanks|eapply hole_size_without; eassumption]).
    assert (H1 : hs u (a ++ (T "T" ++ t)) = Ok (Some (tool_for u e))) by (rewrite HS; apply holesize_says; rewrite <- (app_nil_r (T "T" ++ t)); constructor; [exact A|constructor|exact X]).
    assert (H2 : text_in (T " Holesize ") (a ++ (T "T" ++ t)) = true) by (apply text_in_front; [discriminate|]; now apply (hole_size_tool e)).
    destruct (head_size hs i d z u inc ext defs notes st e (a ++ (T "T" ++ t)) S H1 H2 (without_in _ W) (without_head _ W)) as (s1 & E1 & S1).
    assert (E1' := head_size_eq hs i d z u inc ext defs notes st e (a ++ (T "T" ++ t)) S H1 H2 (without_in _ W) (without_head _ W)).
    rewrite E1. cbn [bind]. assert (P1 : plates ext (os ++ [NSize (fst e) (e_plating (snd e))]) s1).
    { cbv zeta in E1'. rewrite E1 in E1'. apply ok_inj in E1'. rewrite E1'. refine (plates_size ext os st (fst e) _ (tool_for u e) _ P _ eq_refl (size_kept e _ X)). apply S. }
    destruct (IH (or_intror HS) _ _ _ s1 S1 P1) as (s2 & E2 & S2 & P2). exists s2. split; [exact E2|]. rewrite <- !app_assoc in S2, P2. auto.
Qed.
End HeadPlates.

(** ** The tools given beforehand *)
Definition ext_holds (s : list tool) (dct : list (Z * tloc)) (n : Z) (o : option tool) : Prop :=
  match o with None => dget n dct = None | Some t => exists l, dget n dct = Some l /\ tget s l = Some t end.
Lemma ext_numbered ext : forall pre dct,
  (forall n, ext_holds (pre ++ ext) dct n (tool_numbered n pre)) ->
  forall n, ext_holds (pre ++ ext) (fold_left (fun d it => dput (t_num (snd it)) (fst it) d) (combine (seq (List.length pre) (List.length ext)) ext) dct) n (tool_numbered n (pre ++ ext)).
Proof.
  induction ext as [|t ext IH]; intros pre dct H n; [cbn; specialize (H n); now rewrite app_nil_r in *|].
  cbn [List.length seq combine fold_left fst snd]. replace (pre ++ t :: ext) with ((pre ++ [t]) ++ ext) in * by (now rewrite <- app_assoc).
  replace (S (List.length pre)) with (List.length (pre ++ [t])) by (rewrite app_length; cbn; lia). apply IH. clear n. intros n.
  unfold tool_numbered. rewrite map_app. cbn [map]. rewrite latest_snoc. destruct (Z.eqb_spec (t_num t) n) as [<-|NE].
  - cbn [ext_holds]. exists (List.length pre). rewrite dget_dput_same. split; [reflexivity|].
    unfold tget. rewrite <- app_assoc. rewrite nth_error_app2, Nat.sub_diag by lia. reflexivity.
  - specialize (H n). unfold tool_numbered in H. unfold ext_holds in *. destruct (latest n (map (fun t => (t_num t, t)) pre)); now rewrite dget_dput_other.
Qed.
Lemma start_plates se ext : plates ext [] (x_start se ext).
Proof.
  constructor; cbn [x_start x_plated x_tools x_ctools x_store sizes flat_map latest ruling]; auto; [|discriminate].
  intros n. assert (E : ext_holds ext (x_ext (x_start se ext)) n (tool_numbered n ext)) by (refine (ext_numbered ext [] [] _ n); intros k; reflexivity).
  unfold beforehand. destruct (tool_numbered n ext) as [t|]; cbn in E; [destruct E as (l & E & Et)|]; cbn in *; rewrite E; [eauto|reflexivity].
Qed.
Lemma open_plated hs fs ts : opening fs ts -> forall st st', x_prev st = [] -> parse_lines hs st (map strip ts) = Ok st' -> x_plated st' = x_plated st.
Proof.
  intros H. induction H as [|t fs ts R H IH|a b i d fs ts Na Nb H IH]; intros st st' P E; cbn [map parse_lines] in E; [now injection E as ->|..].
  - destruct (remark_step hs st _ P (remark_strip _ R)) as (c & E1 & _). rewrite E1 in E. cbn [bind] in E. apply IH in E; [exact E|exact P].
  - assert (Es : strip (T ";FILE_FORMAT=" ++ a ++ T ":" ++ b) = T ";FILE_FORMAT=" ++ a ++ T ":" ++ b).
    { destruct (number_last b _ Nb) as (r & c & -> & Hc). apply (strip_bounds _ ";"%char c); [cbn; eauto| |reflexivity|exact Hc]. exists (T ";FILE_FORMAT=" ++ a ++ T ":" ++ r). cbn. now rewrite <- !app_assoc. }
    rewrite Es, (format_step hs st a b i d) in E by auto. cbn [bind] in E. apply IH in E; [exact E|exact P].
Qed.

(** ** The whole file *)
Lemma plated_lemma hs se ext fs pre u z fo tu i d ns xs es hl e prog body tail eol :
  es = [] \/ hs = ToolModel.holesize false ->
  opening fs pre -> format_text fo tu -> (i, d) = format_in fo fs se -> readable i d -> noted i d z ns xs es hl ->
  (e = T "%" \/ e = T "M95") -> Forall2 (says i d z) prog body -> (tail = [] \/ tail = [T "M30"]) -> line_end eol -> tool_known (known xs es ext 1) prog ->
  exists f, parse_raw hs se ext (file_text eol (T "M48" :: pre ++ (unit_text u ++ zeros_text z ++ tu) :: hl ++ e :: body ++ tail)) = Ok f /\
    Forall2 (hole_plated (xf_store f) (plated_as ns ext)) (xf_hits f) (holes None (start_inc se) (0, 0)%Qc prog).
Proof.
  intros HS Fo Ft Ei Hr Fn He Fp Htl Eo K. assert (Fd := noted_header _ _ _ _ _ _ _ Fn).
  destruct (C94_lemma hs se ext fs pre u z fo tu i d xs es hl e prog body tail eol HS Fo Ft Ei Hr Fd He Fp Htl Eo K) as (f & PR & V & _). exists f. split; [exact PR|].
  enough (Rt : forall h l, In h (xf_hits f) -> hit_tool h = Some l -> exists n t, tget (xf_store f) l = Some t /\ t_num t = n /\ t_plated t = plated_as ns ext n).
  { clear - V Rt. revert Rt. induction V as [|h x hs' xs' Vh _ IH]; intros Rt; constructor; [|apply IH; intros; eapply Rt; [right|]; eassumption].
    destruct Vh as (dm & Vh & _). unfold hole_view in Vh. unfold hole_plated.
    destruct h as [o p|o p q r]; [|discriminate Vh]. destruct o as [l|]; [|discriminate]. destruct (Rt (Hit (Some l) p) l (or_introl eq_refl) eq_refl) as (n & t & Et & En & Ep).
    unfold tool_of in *. unfold tget in Et. rewrite Et in *. injection Vh as V1 _ _. exists t. split; [reflexivity|]. split; [congruence|]. rewrite Ep. congruence. }
  clear V. revert PR. unfold parse_raw.
  assert (NB : Forall nospace body) by (eapply Forall2_right; [|exact Fp]; intros; eapply says_nospace; eassumption).
  assert (NT : Forall nospace tail) by (destruct Htl as [->| ->]; repeat constructor).
  assert (NE : nospace e) by (destruct He as [->| ->]; repeat constructor).
  assert (NU : nospace (unit_text u ++ zeros_text z ++ tu)) by (destruct Ft, u, z; repeat constructor).
  assert (ST : forall l, Forall nospace l -> map strip l = l).
  { intros l F. induction F as [|a l H F IH]; [reflexivity|]. cbn [map]. now rewrite IH, strip_nospace. }
  rewrite lines_stripped; [|exact Eo|].
  2: { assert (NL : forall l, Forall nospace l -> Forall no_newline l) by (intros l F; eapply Forall_impl; [|exact F]; exact nospace_nl).
       constructor; [apply nospace_nl; repeat constructor|]. apply Forall_app; split; [eapply opening_lines; eassumption|]. constructor; [now apply nospace_nl|].
       apply Forall_app; split; [eapply header_lines; eassumption|]. constructor; [now apply nospace_nl|]. apply Forall_app; split; auto. }
  rewrite map_cons, map_app, map_cons, map_app, map_cons, map_app. rewrite (ST body NB), (ST tail NT), (strip_nospace e NE), (strip_nospace _ NU). change (strip (T "M48")) with (T "M48").
  set (inc := start_inc se). rewrite <- app_comm_cons. cbn [parse_lines]. rewrite dispatch_m48 by reflexivity. cbn [bind]. rewrite <- app_assoc, parse_lines_app.
  match goal with |- context [parse_lines hs ?s (map strip pre)] => set (s0 := s) end.
  assert (O0 : open_at se ext (xs_format se) s0) by (constructor; try reflexivity; repeat split).
  destruct (open_run hs se ext fs pre Fo _ s0 O0) as (s1 & E1 & O1). assert (Pl1 := open_plated hs fs pre Fo s0 s1 (o_prev _ _ _ _ O0) E1). rewrite E1. cbn [bind]. rewrite <- app_comm_cons. cbn [parse_lines].
  rewrite (fun st H => dispatch_unit hs st u z fo tu H Ft) by apply O1. cbn [bind]. match goal with |- context [parse_lines hs ?s _] => set (s2 := s) end.
  assert (H0 : head i d z u inc ext [] [] s2 /\ plates ext [] s2).
  { assert (D0 : forall fm, x_format fm = [Z.of_nat i; Z.of_nat d] -> x_zeros fm = z -> x_units fm = u -> x_prev fm = [] -> x_state fm = SHeader ->
      x_notation fm = x_notation s1 -> x_pos fm = (0, 0)%Qc -> x_down fm = false -> x_plated fm = x_plated s1 -> same_core s1 fm -> head i d z u inc ext [] [] fm /\ plates ext [] fm).
    { intros fm F1 F2 F3 F4 F5 F6 F7 Fd8 F8 C. destruct O1 as [A1 A2 A3 A4 A5 Ad A6]. assert (W1 : wf s1) by (eapply ev_wf with (holesize := hs) (f := false); [apply ev_same; exact A6|apply x_start_wf]).
      assert (W : wf fm) by (eapply ev_wf with (holesize := hs) (f := false); [apply ev_same; exact C|exact W1]).
      destruct C as (C1 & C2 & C3 & C4 & C5 & C6). destruct A6 as (B1 & B2 & B3 & B4 & B5 & B6). rewrite <- B1 in C1. rewrite <- B2 in C2. rewrite <- B3 in C3. rewrite <- B4 in C4. rewrite <- B5 in C5. rewrite <- B6 in C6.
      split; [constructor; auto|].
      - rewrite F6, A4. unfold inc, start_inc. destruct (xs_notation se); reflexivity.
      - intros n. rewrite <- C1, <- C2. reflexivity.
      - intros n. rewrite <- C1, <- C3. reflexivity.
      - intros n. rewrite <- C1, <- C4. exact (start_tools se ext n).
      - apply (plates_same ext [] (x_start se ext)); [apply start_plates|..]; auto. rewrite F8, Pl1. reflexivity. }
    unfold s2. destruct O1 as [A1 A2 A3 A4 A5 Ad A6]. destruct fo as [[a b]|].
    - injection Ei as -> ->. apply D0; auto; repeat split.
    - apply D0; auto; [|repeat split]. cbn [format_in] in Ei. rewrite <- Ei in A3. exact A3. }
  destruct H0 as [H0 P0].
  rewrite <- app_assoc, parse_lines_app. destruct (head_plates hs i d z Hr u inc ext ns xs es hl Fn HS [] [] [] s2 H0 P0) as (s3 & E3 & S3 & P3). rewrite E3. cbn [bind]. cbn [app] in S3, P3.
  rewrite <- app_comm_cons. cbn [parse_lines].
  assert (E4 : exists s4, parse_line hs s3 e = Ok s4 /\ rooted (plated_as ns ext) s4 /\ x_prev s4 = [] /\ x_state s4 = SDrill).
  { assert (G : forall x, rooted (plated_as ns ext) (with_state SDrill (add_stmt x s3))).
    { intros x. assert (W : wf (with_state SDrill (add_stmt x s3))) by (eapply (ev_wf hs false s3); [apply ev_same; repeat split|apply S3]).
      constructor; [exact W| | |].
      - intros n. exact (plates_pv ext ns s3 n P3).
      - intros l. cbn. rewrite (g_act _ _ _ _ _ _ _ _ _ S3). discriminate.
      - intros h l. cbn. rewrite (g_hits _ _ _ _ _ _ _ _ _ S3). intros []. }
    destruct He as [->| ->]; [rewrite dispatch_rewind by apply S3|rewrite dispatch_m95 by apply S3]; eexists; (split; [reflexivity|]); (split; [apply G|]); (split; [apply S3|reflexivity]). }
  destruct E4 as (s4 & E4 & R4 & P4 & X4). rewrite E4. cbn [bind]. rewrite <- app_assoc, parse_lines_app.
  destruct (parse_lines hs s4 body) as [s5|] eqn:E5; [|discriminate]. cbn [bind].
  assert (C5 := body_calm hs i d z prog body Fp s4 s5 P4 X4 E5). assert (R5 := calm_rooted hs _ _ _ C5 R4). destruct (calm_state _ _ C5) as [P5 X5]. rewrite P4 in P5. symmetry in P5.
  rewrite parse_lines_app. intros PR. apply bind_ok in PR as (s7 & E6 & PR). apply bind_ok in E6 as (s6 & E6 & E7).
  assert (R7 : x_hits s7 = x_hits s5 /\ x_store s7 = x_store s5).
  { assert (R6 : x_hits s6 = x_hits s5 /\ x_store s6 = x_store s5 /\ x_prev s6 = []).
    { destruct Htl as [->| ->]; cbn [parse_lines] in E6; [injection E6 as <-; auto|]. apply bind_ok in E6 as (s & E6 & E6'). injection E6' as <-.
      destruct (settings_of s5) as [se5|] eqn:Es.
      - rewrite (dispatch_m30 _ _ se5) in E6 by auto. injection E6 as <-. auto.
      - exfalso. revert E6. unfold parse_line. rewrite P5. cbn [app]. change (settings_of (with_prev [] s5)) with (settings_of s5). cbn. 
        change (settings_of (with_prev [] s5)) with (settings_of s5). rewrite Es. discriminate. }
    destruct R6 as (R6 & R6' & P6). cbn [parse_lines] in E7. rewrite dispatch_blank in E7 by exact P6. cbn [bind] in E7. injection E7 as <-. auto. }
  apply bind_ok in PR as (se5 & _ & PR). injection PR as <-. cbn [xf_hits xf_store]. destruct R7 as [-> ->]. intros h l I E.
  destruct (r_hits _ _ R5 h l I E) as (n & D). destruct (dict_tget _ _ _ _ (wf_tools _ (r_wf _ _ R5)) D) as (t & Et & En). exists n, t. split; [exact Et|]. split; [exact En|].
  rewrite <- (r_pv _ _ R5 n). unfold pv, lookup. now rewrite D, Et.
Qed.
(** Without comments about hole sizes nothing is lost. *)
Lemma ruling_later n : forall ns now r, ruling n now ns = Some r -> sizes ns = [] -> sizes (snd r) = [].
Proof.
  induction ns as [|x ns IH]; intros now r E S; [discriminate|]. cbn [ruling] in E. cbn in S. apply app_eq_nil in S as [_ S].
  destruct (ruling n (in_force now x) ns) as [r'|] eqn:ER; [injection E as <-; exact (IH _ _ ER S)|]. destruct x as [p|k|k p]; try discriminate. destruct (k =? n)%Z; [|discriminate]. now injection E as <-.
Qed.
Lemma stated_same ns ext n : sizes ns = [] -> plated_as ns ext n = stated ns ext n.
Proof.
  intros S. unfold plated_as, stated. rewrite S. cbn [latest]. destruct (ruling n None ns) as [[[p|] later]|] eqn:E; try reflexivity.
  apply ruling_later in E; [|exact S]. cbn [snd] in E. rewrite E. now destruct (beforehand ext n).
Qed.
Lemma noted_sizes i d z ns xs es ts : noted i d z ns xs es ts -> es = [] -> sizes ns = [].
Proof. intros H. induction H; auto; discriminate. Qed.
Lemma types_lemma py3 se ext fs pre u z fo tu i d ns xs hl e prog body tail eol :
  opening fs pre -> format_text fo tu -> (i, d) = format_in fo fs se -> readable i d -> noted i d z ns xs [] hl ->
  (e = T "%" \/ e = T "M95") -> Forall2 (says i d z) prog body -> (tail = [] \/ tail = [T "M30"]) -> line_end eol -> tool_known (known xs [] ext 1) prog ->
  exists f, parse_raw (ToolModel.holesize py3) se ext (file_text eol (T "M48" :: pre ++ (unit_text u ++ zeros_text z ++ tu) :: hl ++ e :: body ++ tail)) = Ok f /\
    Forall2 (hole_plated (xf_store f) (stated ns ext)) (xf_hits f) (holes None (start_inc se) (0, 0)%Qc prog).
Proof.
  intros Fo Ft Ei Hr Fn He Fp Htl Eo K. assert (S := noted_sizes _ _ _ _ _ _ _ Fn eq_refl).
  destruct (plated_lemma (ToolModel.holesize py3) se ext fs pre u z fo tu i d ns xs [] hl e prog body tail eol (or_introl eq_refl) Fo Ft Ei Hr Fn He Fp Htl Eo K) as (f & PR & V).
  exists f. split; [exact PR|]. clear PR. induction V as [|h x hs xs' V _ IH]; constructor; [|exact IH]. destruct V as (t & E & N & P). exists t. rewrite <- (stated_same ns ext _ S). auto.
Qed.
