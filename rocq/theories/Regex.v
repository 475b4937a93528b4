(** The fragment of python's [re] used by gerber/rs274x.py: anchored greedy matching with
    backtracking and named groups.  Repetition is only needed over single-character classes. *)
From Verif Require Import PyBase.

Inductive re :=
| Eps
| Lit (t : text)
| Cls (p : ascii -> bool)
| Star (p : ascii -> bool)           (* [class]* *)
| Opt (r : re)                       (* (r)? *)
| Seq (a b : re)
| Alt (a b : re)
| Grp (name : text) (r : re).        (* (?P<name>r) *)

Definition caps := list (text * text).
(** What was consumed, the groups captured, what remains. *)
Definition mres := (text * caps * text)%type.

Fixpoint strip_prefix (t s : text) : option text :=
  match t, s with
  | [], _ => Some s
  | x :: t', y :: s' => if ceq x y then strip_prefix t' s' else None
  | _ :: _, [] => None
  end.

(** Greedy: longest first. *)
Fixpoint star_match (p : ascii -> bool) (s : text) : list mres :=
  match s with
  | c :: s' => if p c then map (fun m => let '(u, cs, t) := m in (c :: u, cs, t)) (star_match p s') ++ [([], [], s)]
               else [([], [], s)]
  | [] => [([], [], [])]
  end.

(** All ways to match a prefix of [s], in python's order of preference. *)
Fixpoint rm (r : re) (s : text) : list mres :=
  match r with
  | Eps => [([], [], s)]
  | Lit t => match strip_prefix t s with Some s' => [(t, [], s')] | None => [] end
  | Cls p => match s with c :: s' => if p c then [([c], [], s')] else [] | [] => [] end
  | Star p => star_match p s
  | Opt r => rm r s ++ [([], [], s)]
  | Seq a b => flat_map (fun m => let '(u, cs, t) := m in
                 map (fun m' => let '(u', cs', t') := m' in (u ++ u', cs' ++ cs, t')) (rm b t)) (rm a s)
  | Alt a b => rm a s ++ rm b s
  | Grp n r => map (fun m => let '(u, cs, t) := m in (u, (n, u) :: cs, t)) (rm r s)
  end.

(** [expr.match(data)]: the groups and [data[match.end(0):]] (rs274x.py:786-800). *)
Definition re_match (r : re) (s : text) : option (caps * text) :=
  match rm r s with (u, cs, t) :: _ => Some (cs, t) | [] => None end.

(** [groupdict().get(name)]. *)
Fixpoint group (n : string) (cs : caps) : option text :=
  match cs with
  | (m, v) :: r => if teq m (T n) then Some v else group n r
  | [] => None
  end.

Definition Plus_ (p : ascii -> bool) : re := Seq (Cls p) (Star p).      (* [class]+ *)
Definition chr (c : ascii) : re := Cls (ceq c).
Definition one_of (s : string) : ascii -> bool := fun c => char_in c (T s).

(** ** Lemmas *)

Lemma strip_prefix_app t s : strip_prefix t (t ++ s) = Some s.
Proof. induction t as [|c t IH]; cbn; [reflexivity|]. now rewrite ceq_refl. Qed.

Lemma strip_prefix_some t : forall s s', strip_prefix t s = Some s' -> s = t ++ s'.
Proof.
  induction t as [|c t IH]; intros s s' H; cbn in *; [now injection H|].
  destruct s as [|d s]; [discriminate|]. destruct (ceq_spec c d) as [->|]; [|discriminate].
  f_equal. auto.
Qed.

Lemma star_match_used p : forall s u cs t, In (u, cs, t) (star_match p s) ->
  s = u ++ t /\ cs = [] /\ forallb p u = true.
Proof.
  induction s as [|c s IH]; intros u cs t H; cbn [star_match] in H.
  - destruct H as [H|[]]. injection H as <- <- <-. auto.
  - destruct (p c) eqn:P.
    + apply in_app_or in H as [H|[H|[]]]; [|injection H as <- <- <-; auto].
      apply in_map_iff in H as ([[u' cs'] t'] & H & I). injection H as <- <- <-.
      destruct (IH _ _ _ I) as (-> & -> & F). cbn. now rewrite P.
    + destruct H as [H|[]]. injection H as <- <- <-. auto.
Qed.

(** The result consumes a prefix. *)
Lemma rm_used r : forall s u cs t, In (u, cs, t) (rm r s) -> s = u ++ t.
Proof.
  induction r as [|x|p|p|r IH|a IHa b IHb|a IHa b IHb|n r IH]; intros s u cs t H; cbn [rm] in H.
  - destruct H as [H|[]]. injection H as <- <- <-. reflexivity.
  - destruct (strip_prefix x s) eqn:E; [|destruct H]. destruct H as [H|[]]. injection H as <- <- <-.
    now apply strip_prefix_some.
  - destruct s as [|c s]; [destruct H|]. destruct (p c); [|destruct H]. destruct H as [H|[]].
    injection H as <- <- <-. reflexivity.
  - now apply star_match_used in H.
  - apply in_app_or in H as [H|[H|[]]]; [eauto|]. injection H as <- <- <-. reflexivity.
  - apply in_flat_map in H as ([[u1 cs1] t1] & H1 & H2). apply in_map_iff in H2 as ([[u2 cs2] t2] & H2 & H3).
    injection H2 as <- <- <-. apply IHa in H1. apply IHb in H3. subst. now rewrite app_assoc.
  - apply in_app_or in H as [H|H]; eauto.
  - apply in_map_iff in H as ([[u' cs'] t'] & H & I). injection H as <- <- <-. eauto.
Qed.

Lemma re_match_shrinks r s cs t : re_match r s = Some (cs, t) -> exists u, s = u ++ t.
Proof.
  unfold re_match. destruct (rm r s) as [|[[u cs'] t'] l] eqn:E; [discriminate|]. intros H. injection H as <- <-.
  exists u. eapply rm_used. rewrite E. now left.
Qed.

(** *** First matches *)

Definition first (r : re) (s : text) (m : mres) : Prop := exists l, rm r s = m :: l.

Lemma first_match r s u cs t : first r s (u, cs, t) -> re_match r s = Some (cs, t).
Proof. intros [l H]. unfold re_match. now rewrite H. Qed.

Lemma first_eps s : first Eps s ([], [], s).
Proof. now exists []. Qed.
Lemma first_lit t s : first (Lit t) (t ++ s) (t, [], s).
Proof. exists []. cbn. now rewrite strip_prefix_app. Qed.
Lemma first_cls p c s : p c = true -> first (Cls p) (c :: s) ([c], [], s).
Proof. intros H. exists []. cbn. now rewrite H. Qed.
Lemma first_seq a b s u cs t u' cs' t' : first a s (u, cs, t) -> first b t (u', cs', t') ->
  first (Seq a b) s (u ++ u', cs' ++ cs, t').
Proof. intros [l H] [l' H']. unfold first. cbn [rm]. rewrite H. cbn [flat_map]. rewrite H'. eexists. reflexivity. Qed.
Lemma first_grp n r s u cs t : first r s (u, cs, t) -> first (Grp n r) s (u, (n, u) :: cs, t).
Proof. intros [l H]. unfold first. cbn [rm]. rewrite H. eexists. reflexivity. Qed.
Lemma first_opt r s m : first r s m -> first (Opt r) s m.
Proof. intros [l H]. unfold first. cbn [rm]. rewrite H. eexists. reflexivity. Qed.
Lemma first_opt_skip r s : rm r s = [] -> first (Opt r) s ([], [], s).
Proof. intros H. unfold first. cbn [rm]. rewrite H. eexists. reflexivity. Qed.
Lemma first_alt_l a b s m : first a s m -> first (Alt a b) s m.
Proof. intros [l H]. unfold first. cbn [rm]. rewrite H. eexists. reflexivity. Qed.
Lemma first_alt_r a b s m : rm a s = [] -> first b s m -> first (Alt a b) s m.
Proof. intros H0 [l H]. unfold first. cbn [rm]. rewrite H0, H. eexists. reflexivity. Qed.

Lemma first_star p a r : forallb p a = true -> (match r with c :: _ => p c = false | [] => True end) ->
  first (Star p) (a ++ r) (a, [], r).
Proof.
  induction a as [|c a IH]; intros H Hr; unfold first; cbn [rm].
  - cbn [app]. destruct r as [|c r]; cbn [star_match]; [eexists; reflexivity|]. rewrite Hr. eexists. reflexivity.
  - cbn [forallb] in H. apply andb_prop in H as [H1 H2]. destruct (IH H2 Hr) as [l E]. cbn [rm] in E.
    cbn [app star_match]. rewrite H1, E. eexists. reflexivity.
Qed.
Lemma first_plus p a r : forallb p a = true -> a <> [] -> (match r with c :: _ => p c = false | [] => True end) ->
  first (Plus_ p) (a ++ r) (a, [], r).
Proof.
  intros H Hn Hr. destruct a as [|c a]; [contradiction|]. cbn [forallb] in H. apply andb_prop in H as [H1 H2].
  apply (first_seq (Cls p) (Star p) _ [c] [] (a ++ r) a [] r); [now apply first_cls|now apply first_star].
Qed.

(** *** Failure *)

Lemma fail_seq_l a b s : rm a s = [] -> rm (Seq a b) s = [].
Proof. intros H. cbn [rm]. now rewrite H. Qed.
Lemma fail_seq a b s : (forall u cs t, In (u, cs, t) (rm a s) -> rm b t = []) -> rm (Seq a b) s = [].
Proof.
  intros H. cbn [rm]. induction (rm a s) as [|[[u cs] t] l IH]; [reflexivity|]. cbn [flat_map].
  rewrite (H u cs t) by now left. cbn [map app]. apply IH. intros; eapply H; right; eauto.
Qed.
Lemma fail_grp n r s : rm r s = [] -> rm (Grp n r) s = [].
Proof. intros H. cbn [rm]. now rewrite H. Qed.
Lemma fail_lit c t x s : c <> x -> rm (Lit (c :: t)) (x :: s) = [].
Proof. intros H. cbn. apply ceq_false in H. now rewrite H. Qed.
Lemma fail_match r s : rm r s = [] -> re_match r s = None.
Proof. intros H. unfold re_match. now rewrite H. Qed.

(** *** A repetition that has to give back: it ends just before the last place where the
    continuation succeeds *)

Lemma first_star_seq p b a r m : forallb p a = true ->
  first b r m ->
  (forall u t, u <> [] -> forallb p u = true -> r = u ++ t -> rm b t = []) ->
  first (Seq (Star p) b) (a ++ r) (let '(u', cs', t') := m in (a ++ u', cs' ++ [], t')).
Proof.
  intros Ha [l Hb] Hno. destruct m as [[u' cs'] t'].
  assert (G : forall r', (forall u t, u <> [] -> forallb p u = true -> r' = u ++ t -> rm b t = []) ->
     forall l0, rm b r' = l0 -> exists l1 l2,
       star_match p r' = l1 ++ ([], [], r') :: l2 /\ (forall u cs t, In (u, cs, t) l1 -> rm b t = [])).
  { intros r' Hno' l0 _. destruct r' as [|c r']; cbn [star_match].
    - exists [], []. split; [reflexivity|]. intros u cs t [].
    - destruct (p c) eqn:P.
      + eexists _, []. split; [reflexivity|]. intros u cs t Hin.
        apply in_map_iff in Hin as ([[v cs2] t2] & E & I). injection E as <- <- <-.
        apply star_match_used in I as (-> & _ & F). eapply (Hno' (c :: v)); [discriminate| |reflexivity].
        cbn. now rewrite P.
      + exists [], []. split; [reflexivity|]. intros u cs t []. }
  destruct (G r Hno _ eq_refl) as (l1 & l2 & E & N). clear G.
  assert (S : exists l1' l2', star_match p (a ++ r) = l1' ++ (a, [], r) :: l2' /\
                (forall u cs t, In (u, cs, t) l1' -> rm b t = [])).
  { clear Hb. induction a as [|c a IH]; [eauto|]. cbn [forallb] in Ha. apply andb_prop in Ha as [H1 H2].
    destruct (IH H2) as (k1 & k2 & Ek & Nk). cbn [app star_match]. rewrite H1, Ek, map_app. cbn [map].
    rewrite <- app_assoc. cbn [app]. eexists _, _. split; [reflexivity|]. intros u cs t Hin.
    apply in_map_iff in Hin as ([[v cs2] t2] & Ev & I). injection Ev as <- <- <-. eauto. }
  destruct S as (k1 & k2 & Ek & Nk). unfold first. cbn [rm]. rewrite Ek, flat_map_app. cbn [flat_map].
  assert (Z : flat_map (fun m => let '(u, cs, t) := m in
                 map (fun m' => let '(u', cs', t') := m' in (u ++ u', cs' ++ cs, t')) (rm b t)) k1 = []).
  { clear Ek. induction k1 as [|[[u cs] t] k1 IH]; [reflexivity|]. cbn [flat_map].
    rewrite (Nk u cs t) by now left. cbn [map app]. apply IH. intros; eapply Nk; right; eauto. }
  rewrite Z, Hb. cbn [app map]. eexists. reflexivity.
Qed.

(** *** Preferred alternatives that the continuation rejects *)

(** [m] is a way to match, and every preferred way leaves a rest on which the continuation fails. *)
Definition firstb (r : re) (s : text) (m : mres) (bad : text -> Prop) : Prop :=
  exists l1 l2, rm r s = l1 ++ m :: l2 /\ forall u cs t, In (u, cs, t) l1 -> bad t.

Lemma first_firstb r s m bad : first r s m -> firstb r s m bad.
Proof. intros [l H]. exists [], l. split; [exact H|]. intros u cs t []. Qed.

Lemma firstb_seq a b s u cs t u' cs' t' bad : first a s (u, cs, t) -> firstb b t (u', cs', t') bad ->
  firstb (Seq a b) s (u ++ u', cs' ++ cs, t') bad.
Proof.
  intros [l H] (l1 & l2 & H' & N). unfold firstb. cbn [rm]. rewrite H. cbn [flat_map]. rewrite H', map_app.
  cbn [map]. rewrite <- app_assoc. cbn [app]. eexists _, _. split; [reflexivity|].
  intros v cs0 t0 I. apply in_map_iff in I as ([[v1 cs1] t1] & E & I). injection E as <- <- <-. eauto.
Qed.

Lemma firstb_grp n r s u cs t bad : firstb r s (u, cs, t) bad -> firstb (Grp n r) s (u, (n, u) :: cs, t) bad.
Proof.
  intros (l1 & l2 & H & N). unfold firstb. cbn [rm]. rewrite H, map_app. cbn [map].
  eexists _, _. split; [reflexivity|].
  intros v cs0 t0 I. apply in_map_iff in I as ([[v1 cs1] t1] & E & I). injection E as <- <- <-. eauto.
Qed.

Lemma flat_map_nil {A B} (f : A -> list B) l : (forall x, In x l -> f x = []) -> flat_map f l = [].
Proof.
  induction l as [|x l IH]; intros H; [reflexivity|]. cbn [flat_map]. rewrite (H x) by now left.
  apply IH. intros; apply H; now right.
Qed.

Lemma first_seq_back a b s u cs t u' cs' t' : firstb a s (u, cs, t) (fun t => rm b t = []) ->
  first b t (u', cs', t') -> first (Seq a b) s (u ++ u', cs' ++ cs, t').
Proof.
  intros (l1 & l2 & H & N) [l Hb]. unfold first. cbn [rm]. rewrite H, flat_map_app. cbn [flat_map].
  rewrite flat_map_nil by (intros [[v cs0] t0] I; now rewrite (N _ _ _ I)). rewrite Hb. cbn [app map]. eexists. reflexivity.
Qed.

(** A repetition over [a], going on over [x], that has to give [x] back. *)
Lemma firstb_star p a x r (bad : text -> Prop) : forallb p (a ++ x) = true ->
  (match r with c :: _ => p c = false | [] => True end) ->
  (forall x1 x2, x1 <> [] -> x = x1 ++ x2 -> bad (x2 ++ r)) ->
  firstb (Star p) (a ++ x ++ r) (a, [], x ++ r) bad.
Proof.
  intros Ha Hr Hb. rewrite forallb_app in Ha. apply andb_prop in Ha as [Ha Hx].
  unfold firstb. cbn [rm]. induction a as [|c a IH].
  - cbn [app]. clear Ha. destruct x as [|c x].
    + cbn [app]. exists [], []. split; [|intros u cs t []]. destruct r as [|c r]; cbn [star_match]; [reflexivity|].
      now rewrite Hr.
    + cbn [forallb] in Hx. apply andb_prop in Hx as [H1 H2]. cbn [app star_match]. rewrite H1.
      eexists _, []. split; [reflexivity|]. intros u cs t I.
      apply in_map_iff in I as ([[v1 cs1] t1] & E & I). injection E as <- <- <-.
      apply star_match_used in I as (E & _ & F).
      (* v1 is a prefix of x ++ r, all in p, so a prefix of x *)
      assert (P : exists x2, x = v1 ++ x2 /\ t1 = x2 ++ r).
      { clear Hb H1. revert v1 E F. induction x as [|y x IHx]; intros v1 E F.
        - cbn [app] in E. destruct v1 as [|d v1]; [exists []; auto|]. subst r. cbn [forallb app] in *.
          rewrite Hr in F. discriminate.
        - destruct v1 as [|d v1]; [exists (y :: x); auto|]. cbn [app] in E. injection E as <- E.
          cbn [forallb] in F, H2. apply andb_prop in F as [_ F]. apply andb_prop in H2 as [_ H2].
          destruct (IHx H2 _ E F) as (x2 & -> & ->). exists x2. auto. }
      destruct P as (x2 & -> & ->). apply (Hb (c :: v1)); [discriminate|reflexivity].
  - cbn [forallb] in Ha. apply andb_prop in Ha as [H1 H2]. destruct (IH H2) as (l1 & l2 & E & N).
    cbn [app star_match]. rewrite H1, E, map_app. cbn [map]. rewrite <- app_assoc. cbn [app].
    eexists _, _. split; [reflexivity|]. intros u cs t I.
    apply in_map_iff in I as ([[v1 cs1] t1] & E1 & I). injection E1 as <- <- <-. eauto.
Qed.

(** *** Sequencing is associative *)

Lemma rm_seq_assoc a b c s : rm (Seq (Seq a b) c) s = rm (Seq a (Seq b c)) s.
Proof.
  cbn [rm]. induction (rm a s) as [|[[u cs] t] l IH]; [reflexivity|]. cbn [flat_map].
  rewrite flat_map_app, IH. f_equal. clear.
  induction (rm b t) as [|[[u1 cs1] t1] l1 IH1]; [reflexivity|]. cbn [map flat_map].
  rewrite IH1, map_app. f_equal. rewrite map_map. apply map_ext. intros [[u2 cs2] t2]. now rewrite !app_assoc.
Qed.

Lemma rm_seq_cong a b b' s : (forall t, rm b t = rm b' t) -> rm (Seq a b) s = rm (Seq a b') s.
Proof.
  intros H. cbn [rm]. induction (rm a s) as [|[[u cs] t] l IH]; [reflexivity|]. cbn [flat_map]. now rewrite H, IH.
Qed.

Lemma re_match_ext r r' s : rm r s = rm r' s -> re_match r s = re_match r' s.
Proof. unfold re_match. now intros ->. Qed.

Lemma first_ext r r' s m : rm r s = rm r' s -> first r' s m -> first r s m.
Proof. intros H [l E]. exists l. now rewrite H. Qed.
