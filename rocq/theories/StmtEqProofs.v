(** Comparison of statements. *)
From Verif Require Import PyBase QcLib NumModel GerberText ExcellonModel StmtEqModel StmtEqSpec.
Import ListNotations.
Open Scope list_scope.

Lemma list_eq_true A (eq : A -> A -> bool) : (forall x y, eq x y = true <-> x = y) -> forall a b, list_eq eq a b = true <-> a = b.
Proof.
  intros E. induction a as [|x a IH]; intros [|y b]; cbn [list_eq]; split; intros H; try discriminate; try reflexivity.
  - apply andb_prop in H as [H1 H2]. apply E in H1. apply IH in H2. now subst.
  - inversion H; subst. rewrite (proj2 (E y y) eq_refl). now apply IH.
Qed.
Lemma value_eq_true v w : value_eq v w = true <-> v = w.
Proof.
  destruct v, w; cbn [value_eq]; try (split; [discriminate|intros X; discriminate X]).
  - tauto.
  - rewrite teq_true. split; [now intros ->|now injection 1].
  - rewrite qceq_true. split; [now intros ->|now injection 1].
  - rewrite (list_eq_true _ _ teq_true). split; [now intros ->|now injection 1].
  - rewrite (list_eq_true _ _ (list_eq_true _ _ qceq_true)). split; [now intros ->|now injection 1].
  - rewrite Nat.eqb_eq. split; [now intros ->|now injection 1].
Qed.
Lemma value_eq_refl v : value_eq v v = true.
Proof. now apply value_eq_true. Qed.

Lemma vint_inj a b : vint a = vint b -> a = b.
Proof. intros H. apply (f_equal (fun v => match v with VNum q => q | _ => 0%Qc end)) in H. now apply zq_inj in H. Qed.
Lemma vbool_inj a b : vbool a = vbool b -> a = b.
Proof. intros H. apply vint_inj in H. destruct a, b; congruence. Qed.
Lemma vopt_inj A (f : A -> value) a b : (forall x, f x <> VNone) -> (forall x y, f x = f y -> x = y) -> vopt f a = vopt f b -> a = b.
Proof. intros N J. destruct a as [a|], b as [b|]; cbn; intros H; [f_equal; auto|now apply N in H|symmetry in H; now apply N in H|reflexivity]. Qed.
Lemma vfmt_inj a b : vfmt a = vfmt b -> a = b.
Proof.
  destruct a as [a1 a2], b as [b1 b2]. unfold vfmt. cbn [fst snd]. intros H.
  assert (E1 : zq (Z.of_nat a1) = zq (Z.of_nat b1)) by congruence. assert (E2 : zq (Z.of_nat a2) = zq (Z.of_nat b2)) by congruence.
  apply (proj1 (zq_inj _ _)), Nat2Z.inj in E1. apply (proj1 (zq_inj _ _)), Nat2Z.inj in E2. now subst.
Qed.
Lemma vunits_inj a b : vunits a = vunits b -> a = b.
Proof. destruct a, b; try reflexivity; discriminate. Qed.
Lemma vtext_inj a b : VText a = VText b -> a = b.
Proof. now injection 1. Qed.
Lemma vnum_inj a b : VNum a = VNum b -> a = b.
Proof. now injection 1. Qed.
Lemma vtool_inj a b : VTool a = VTool b -> a = b.
Proof. now injection 1. Qed.
Lemma o_int a b : vopt vint a = vopt vint b -> a = b.
Proof. apply vopt_inj; [discriminate|exact vint_inj]. Qed.
Lemma o_num a b : vopt VNum a = vopt VNum b -> a = b.
Proof. apply vopt_inj; [discriminate|exact vnum_inj]. Qed.
Lemma o_text a b : vopt VText a = vopt VText b -> a = b.
Proof. apply vopt_inj; [discriminate|exact vtext_inj]. Qed.
Lemma o_fmt a b : vopt vfmt a = vopt vfmt b -> a = b.
Proof. apply vopt_inj; [discriminate|exact vfmt_inj]. Qed.
Lemma o_tool a b : vopt VTool a = vopt VTool b -> a = b.
Proof. apply vopt_inj; [discriminate|exact vtool_inj]. Qed.

Ltac same H := unfold dict_eq in H; cbn - [value_eq vint vbool vopt vfmt vunits T] in H; try discriminate H;
  repeat match type of H with _ && _ = true => let K := fresh in apply andb_prop in H as [K H]; apply value_eq_true in K end; try discriminate H; clear H.
Ltac solved := repeat match goal with
  | K : VText (T _) = VText (T _) |- _ => first [discriminate K|clear K]
  | K : VText (T _) = VNone |- _ => discriminate K
  | K : VNone = VText (T _) |- _ => discriminate K
  | K : vint _ = vint _ |- _ => apply vint_inj in K
  | K : vbool _ = vbool _ |- _ => apply vbool_inj in K
  | K : vfmt _ = vfmt _ |- _ => apply vfmt_inj in K
  | K : vunits _ = vunits _ |- _ => apply vunits_inj in K
  | K : vopt vint _ = _ |- _ => apply o_int in K
  | K : vopt VNum _ = _ |- _ => apply o_num in K
  | K : vopt VText _ = _ |- _ => apply o_text in K
  | K : vopt vfmt _ = _ |- _ => apply o_fmt in K
  | K : vopt VTool _ = _ |- _ => apply o_tool in K
  end.

Lemma gerber_same u s u' s' : dict_eq (gerber_dict u s) (gerber_dict u' s') = true -> u = u' /\ s = s'.
Proof.
  intros H. destruct s, s'; same H; solved; try (split; congruence).
  all: repeat match goal with b : bool |- _ => destruct b | z : zmode |- _ => destruct z | p : polarity |- _ => destruct p | q : quadrant |- _ => destruct q | m : onoff |- _ => destruct m end;
    try discriminate; try (split; congruence).
Qed.
Lemma gerber_refl u s : dict_eq (gerber_dict u s) (gerber_dict u s) = true.
Proof. destruct s; unfold dict_eq; cbn - [value_eq vint vbool vopt vfmt vunits T]; now rewrite !value_eq_refl. Qed.
Lemma gerber_iff u s u' s' : gerber_eq (u, s) (Stmt (u', s')) = Ok true <-> u = u' /\ s = s'.
Proof.
  cbn [gerber_eq fst snd]. split.
  - intros H. apply gerber_same. congruence.
  - intros [-> ->]. now rewrite gerber_refl.
Qed.

Lemma drill_same u id s u' id' s' : dict_eq (drill_dict u id s) (drill_dict u' id' s') = true ->
  id = id' /\ own_units u s = own_units u' s' /\ (s = s' \/ bare s /\ bare s').
Proof.
  intros H. destruct s, s'; same H; solved; cbn [own_units]; (split; [assumption|]); (split; [assumption|]); try (left; congruence);
    try (right; split; first [left; cbn; tauto|right; eexists; reflexivity]).
  all: left; repeat match goal with b : bool |- _ => destruct b | z : zkind |- _ => destruct z | m : option cmode |- _ => destruct m as [[|]|] end;
    try discriminate; congruence.
Qed.
Lemma drill_refl u id s u' : own_units u s = own_units u' s -> dict_eq (drill_dict u id s) (drill_dict u' id s) = true.
Proof. destruct s; cbn [own_units]; intros E; subst; unfold dict_eq; cbn - [value_eq vint vbool vopt vfmt vunits T]; now rewrite ?value_eq_refl. Qed.
Lemma bare_dict u id s : bare s -> drill_dict u id s = xbase (own_units u s) id [].
Proof. intros [H|[w ->]]; [|reflexivity]. cbn in H. repeat destruct H as [<-|H]; try reflexivity. destruct H. Qed.
Lemma drill_iff u id s u' id' s' : drill_eq (u, id, s) (Stmt (u', id', s')) = Ok true <->
  id = id' /\ own_units u s = own_units u' s' /\ (s = s' \/ bare s /\ bare s').
Proof.
  cbn [drill_eq]. split.
  - intros H. apply drill_same. congruence.
  - intros (<- & U & [<-|[B B']]); f_equal; [now apply drill_refl|].
    rewrite (bare_dict _ _ _ B), (bare_dict _ _ _ B'), U. unfold dict_eq. cbn - [value_eq vint vunits T]. now rewrite !value_eq_refl.
Qed.
