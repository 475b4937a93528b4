(** Comments in macros and the primitives built from them. *)
From Verif Require Import PyBase QcLib NumModel MacroModel MacroSpec MacroProofs GerberText AmModel AmWrite.
Open Scope list_scope.

Lemma comment_value s bs' : forall bs env, match macro_value env (bs ++ bs') with
  | Some y => exists a b, y = a ++ b /\ macro_value env (bs ++ BComment s :: bs') = Some (a ++ (0%Z, [MText (strip s)]) :: b)
  | None => macro_value env (bs ++ BComment s :: bs') = None
  end.
Proof.
  induction bs as [|b bs IH]; intros env.
  - cbn. destruct (macro_value env bs') as [y|]; [|reflexivity]. exists [], y. split; reflexivity.
  - destruct b as [t|c ms|n e]; cbn [app macro_value].
    + specialize (IH env). destruct (macro_value env (bs ++ bs')) as [y|]; cbn [option_map].
      * destruct IH as (a & b & -> & ->). eexists (_ :: a), b. split; reflexivity.
      * now rewrite IH.
    + destruct (all_some _) as [vs|]; [|reflexivity]. specialize (IH env). destruct (macro_value env (bs ++ bs')) as [y|]; cbn [option_map].
      * destruct IH as (a & b & -> & ->). eexists (_ :: a), b. split; reflexivity.
      * now rewrite IH.
    + destruct (exp_value env e) as [v|]; [apply IH|reflexivity].
Qed.
Lemma comment_made s : exists t, from_gerber (yield_text (0%Z, [MText s])) = Ok (AComment t).
Proof.
  unfold yield_text. change (show_int (fst (0%Z, [MText s])) ++ T "," ++ _) with ("0"%char :: T "," ++ s).
  unfold from_gerber. change (ceq "0" "0") with true. cbn iota. unfold comment_from.
  assert (E : exists r, strip ("0"%char :: T "," ++ s) = "0"%char :: r).
  { unfold strip, strip_p. cbn [lstrip_p]. change (is_space "0") with false. cbn iota. unfold rstrip_p. cbn [rev].
    generalize (rev (T "," ++ s)). intros l. induction l as [|x l IH]; cbn [app lstrip_p].
    - change (is_space "0") with false. cbn. eauto.
    - destruct (is_space x); [exact IH|]. cbn [rev]. rewrite rev_app_distr. cbn. eauto. }
  destruct E as (r & ->). change (py_int ["0"%char]) with (@Ok Z 0%Z). cbn [bind check Z.eqb]. eauto.
Qed.
Lemma comment_built bs vs s bs' : Forall block_ok bs -> ~ In "*"%char s -> ~ In "="%char s -> Forall block_ok bs' ->
  exists is is', read_macro (macro_text (bs ++ BComment s :: bs')) = Ok is /\ read_macro (macro_text (bs ++ bs')) = Ok is' /\
    match am_build is' vs with
    | Ok ps => exists a b t, ps = a ++ b /\ am_build is vs = Ok (a ++ AComment t :: b)
    | Err e => am_build is vs = Err e
    end.
Proof.
  intros H1 Hs He H2.
  destruct (macro_meaning_lemma (bs ++ BComment s :: bs') vs []) as (is & R & E).
  { apply Forall_app. split; [auto|]. constructor; [now split|auto]. }
  destruct (macro_meaning_lemma (bs ++ bs') vs []) as (is' & R' & E').
  { apply Forall_app. now split. }
  exists is, is'. split; [exact R|]. split; [exact R'|]. unfold am_build. rewrite E, E'. pose proof (comment_value s bs' bs (modifier_env vs)) as V.
  destruct (macro_value (modifier_env vs) (bs ++ bs')) as [y|]; [|now rewrite V].
  destruct V as (a & b & -> & ->). cbn [bind fst]. rewrite !mapM_app. cbn [mapM]. destruct (comment_made (strip s)) as (t & ->). cbn [bind].
  destruct (mapM _ a) as [x|]; cbn [bind]; [|reflexivity]. destruct (mapM _ b) as [z|]; cbn [bind]; [|reflexivity]. exists x, z, t. split; reflexivity.
Qed.
