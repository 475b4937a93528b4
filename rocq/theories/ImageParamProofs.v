(** Lemmas about image parameters. *)
From Verif Require Import PyBase QcLib NumModel NumSpec NumProofs FmtModel FmtProofs DecimalProofs MacroModel MacroSpec MacroProofs SplitModel Regex
  GerberText GerberTextSpec GerberTextProofs GerberEval GerberEvalSpec GerberEvalProofs GerberConvSpec ImageParamSpec.
Open Scope Qc_scope.

(** ** Reading decimals *)

Inductive sg := NoSign | PlusSign | MinusSign.
Definition sg_text (s : sg) : text := match s with NoSign => [] | PlusSign => T "+" | MinusSign => T "-" end.
Lemma decimal_parts x v : decimal_text x v -> exists s a b, x = sg_text s ++ a ++ fraction_text b /\ all_digits a = true /\ a <> [] /\ all_digits b = true /\
  v = match s with MinusSign => - dec (dval (a ++ b)) (List.length b) | _ => dec (dval (a ++ b)) (List.length b) end.
Proof.
  assert (forall a b, digit_string a -> digit_string b -> grid (int_of (a ++ b)) (List.length b) = dec (dval (a ++ b)) (List.length b)) as G.
  { intros a b A B. rewrite grid_dec, int_of_dval; [reflexivity|]. unfold digit_string in *. apply Forall_app. auto. }
  intros [a b A N B|a b A N B|a b A N B]; rewrite (G a b A B); [exists NoSign, a, b|exists PlusSign, a, b|exists MinusSign, a, b];
    apply digit_string_iff in A, B; repeat split; auto.
Qed.
Lemma first_fraction b r : all_digits b = true -> (exists c q, r = c :: q /\ is_digit c = false /\ ceq c "." = false) ->
  first (Opt (Seq (Opt (L ".")) (Plus_ is_digit))) (fraction_text b ++ r) (fraction_text b, [], r).
Proof.
  intros B (c & q & -> & D & P). destruct b as [|d b].
  - cbn [fraction_text app]. apply first_opt_skip. cbn. unfold ceq in P. rewrite Ascii.eqb_sym in P. unfold ceq. rewrite P. cbn. now rewrite D.
  - cbn [fraction_text]. apply first_opt. rewrite <- app_assoc.
    apply (first_seq (Opt (L ".")) _ _ (T ".") [] ((d :: b) ++ c :: q) (d :: b) [] (c :: q)); [apply first_opt, first_lit|]. apply first_plus_digits; [exact B|discriminate|exact D].
Qed.
Lemma first_decimal_text s a b r : all_digits a = true -> a <> [] -> all_digits b = true -> (exists c q, r = c :: q /\ is_digit c = false /\ ceq c "." = false) ->
  first DECIMAL ((sg_text s ++ a ++ fraction_text b) ++ r) (sg_text s ++ a ++ fraction_text b, [], r).
Proof.
  intros Da Na Db Hr. unfold DECIMAL. cbn [seqs]. rewrite <- !app_assoc.
  apply (first_seq (Opt (Cls (one_of "+-"))) _ _ (sg_text s) [] (a ++ fraction_text b ++ r) (a ++ fraction_text b) [] r).
  - destruct s; [|apply first_opt, first_cls; reflexivity|apply first_opt, first_cls; reflexivity]. cbn [sg_text app]. apply first_opt_skip. destruct a as [|c a]; [contradiction|].
    cbn [app rm]. cbn in Da. apply andb_prop in Da as [Dc _]. unfold one_of. cbn [T list_ascii_of_string]. unfold char_in. cbn [existsb]. now rewrite !(digit_neq c) by auto.
  - apply (first_seq (Plus_ is_digit) _ _ a [] (fraction_text b ++ r) (fraction_text b) [] r); [|now apply first_fraction].
    apply first_plus_digits; auto. destruct b as [|d b]; [destruct Hr as (c & q & -> & H & _); exact H|reflexivity].
Qed.
Lemma decimal_read x v : decimal_text x v -> py_float x = Ok v.
Proof.
  intros H. apply decimal_parts in H as (s & a & b & -> & A & N & B & ->).
  assert (a ++ b <> []) as NE by now destruct a. destruct b as [|c b].
  - cbn [fraction_text List.length]. rewrite !app_nil_r. rewrite app_nil_r in NE.
    assert (U : py_float_unsigned a = Ok (dec (dval a) 0)).
    { unfold py_float_unsigned. rewrite <- (app_nil_r a) at 1. rewrite span_digits_all by auto. rewrite ?app_nil_r. destruct a; [contradiction|]. reflexivity. }
    assert (forall c, In c a -> is_space c = false) as SP by (intros c Hc; apply digit_not_space; exact (all_digits_in a c A Hc)).
    destruct s; cbn [sg_text T list_ascii_of_string app].
    + unfold py_float. rewrite strip_id by exact SP. destruct a as [|c a]; [contradiction|]. cbn in A. apply andb_prop in A as [Dc A].
      rewrite !(digit_neq c) by auto. exact U.
    + unfold py_float. rewrite strip_id by (intros c [<-|I]; [reflexivity|auto]). simpl ceq. now rewrite U.
    + unfold py_float. rewrite strip_id by (intros c [<-|I]; [reflexivity|auto]). simpl ceq. now rewrite U.
  - cbn [fraction_text]. destruct s.
    + exact (py_float_signed None a (c :: b) A B NE).
    + exact (py_float_signed (Some false) a (c :: b) A B NE).
    + exact (py_float_signed (Some true) a (c :: b) A B NE).
Qed.
Lemma decimal_text_inner x v : decimal_text x v -> forallb inner x = true.
Proof.
  intros H. apply decimal_parts in H as (s & a & b & -> & A & N & B & _). rewrite !forallb_app, (digits_inner a A).
  assert (forallb inner (fraction_text b) = true) as -> by (destruct b; [reflexivity|cbn [fraction_text]; rewrite forallb_app, (digits_inner _ B); reflexivity]). now destruct s.
Qed.

(** ** Single statements as files *)

Lemma parse_single fs t l st : cmd_shape t -> (forall inc, parse_step inc pset0 t = Some (Ok (l, st, []))) -> parse_text fs (t ++ [nl]) = Ok (l, st).
Proof.
  intros C P. unfold parse_text. rewrite parse_data_eq. unfold split_commands. destruct (split_command t true C) as [h H]. rewrite (H []). cbn [fst split_loop].
  erewrite parse_one_cmd; [|exact C|apply P]. cbn. now rewrite app_nil_r.
Qed.
Lemma parse_single_err fs t e : cmd_shape t -> (forall inc, parse_step inc pset0 t = Some (Err e)) -> parse_text fs (t ++ [nl]) = Err e.
Proof.
  intros C P. unfold parse_text. rewrite parse_data_eq. unfold split_commands. destruct (split_command t true C) as [h H]. rewrite (H []). cbn [fst split_loop].
  eapply parse_one_err; [exact C|apply P].
Qed.

Definition before_OF := map param_wrap [FS; MO; LP; AD_CIRCLE; AD_RECT; AD_OBROUND; AD_POLY; AD_MACRO; AM; AS; IF_; IN; IP; IR; MI].
Lemma offset_read fs x y vx vy : decimal_text x vx -> decimal_text y vy -> parse_text fs ((T "%OFA" ++ x ++ T "B" ++ y ++ T "*%") ++ [nl]) = Ok ([SOF (Some vx) (Some vy)], pset0).
Proof.
  intros X Y. pose proof (decimal_read x vx X) as Fx. pose proof (decimal_read y vy Y) as Fy. apply parse_single.
  - left. exists (T "OFA" ++ x ++ T "B" ++ y ++ T "*"). split; [change (T "*%") with (T "*" ++ T "%"); now rewrite <- !app_assoc|].
    now rewrite !forallb_app, (decimal_text_inner x vx X), (decimal_text_inner y vy Y).
  - intros inc. assert (M : re_match (param_wrap OF) (T "%OFA" ++ x ++ T "B" ++ y ++ T "*%") = Some ([(T "b", y); (T "a", x); (T "param", T "OF")], [])).
    { eapply first_match. unfold param_wrap, OF. cbn [seqs].
      change [(T "b", y); (T "a", x); (T "param", T "OF")] with (((([] ++ []) ++ ((([(T "b", y)] ++ []) ++ ([(T "a", x)] ++ [])) ++ [(T "param", T "OF")])) ++ [])).
      change (T "%OFA" ++ x ++ T "B" ++ y ++ T "*%") with (T "%" ++ T "OF" ++ T "A" ++ x ++ T "B" ++ y ++ T "*" ++ T "%" ++ []).
      eapply first_seq; [apply first_opt, first_lit|]. eapply first_seq.
      - eapply first_seq; [apply first_grp, first_lit|]. eapply first_seq.
        + apply first_opt. eapply first_seq; [apply first_lit|]. apply first_grp. apply decimal_parts in X as (s & a & b & -> & A & N & B & _).
          apply first_decimal_text; auto. exists "B"%char. eexists. repeat split.
        + apply first_opt. eapply first_seq; [apply first_lit|]. apply first_grp. apply decimal_parts in Y as (s & a & b & -> & A & N & B & _).
          apply first_decimal_text; auto. exists "*"%char. eexists. repeat split.
      - eapply first_seq; [apply first_lit|]. apply first_opt, first_lit. }
    etransitivity; [apply (param_step inc pset0 before_OF (param_wrap OF) (map param_wrap [SF; LN]) _ _ [] eq_refl (offset_fails _) M); eexists; reflexivity|].
    change (param_stmt inc pset0 [(T "b", y); (T "a", x); (T "param", T "OF")] []) with (do s <- (do u <- py_float x; do w <- py_float y; Ok (SOF (Some u) (Some w))); Ok ([s], pset0, [] : text)). now rewrite Fx, Fy.
Qed.

(** An axis left out: float(None). *)
Lemma offset_axis_missing fs x vx : decimal_text x vx -> parse_text fs ((T "%OFA" ++ x ++ T "*%") ++ [nl]) = Err TypeError.
Proof.
  intros X. pose proof (decimal_read x vx X) as Fx. apply parse_single_err.
  - left. exists (T "OFA" ++ x ++ T "*"). split; [change (T "*%") with (T "*" ++ T "%"); now rewrite <- !app_assoc|]. now rewrite !forallb_app, (decimal_text_inner x vx X).
  - intros inc. assert (M : re_match (param_wrap OF) (T "%OFA" ++ x ++ T "*%") = Some ([(T "a", x); (T "param", T "OF")], [])).
    { eapply first_match. unfold param_wrap, OF. cbn [seqs].
      change [(T "a", x); (T "param", T "OF")] with (((([] ++ []) ++ (([] ++ ([(T "a", x)] ++ [])) ++ [(T "param", T "OF")])) ++ [])).
      change (T "%OFA" ++ x ++ T "*%") with (T "%" ++ T "OF" ++ T "A" ++ x ++ [] ++ T "*" ++ T "%" ++ []).
      eapply first_seq; [apply first_opt, first_lit|]. eapply first_seq.
      - eapply first_seq; [apply first_grp, first_lit|]. eapply first_seq.
        + apply first_opt. eapply first_seq; [apply first_lit|]. apply first_grp. apply decimal_parts in X as (s & a & b & -> & A & N & B & _).
          apply first_decimal_text; auto. exists "*"%char. eexists. repeat split.
        + cbn [app]. apply first_opt_skip. reflexivity.
      - eapply first_seq; [apply first_lit|]. apply first_opt, first_lit. }
    etransitivity; [apply (param_step inc pset0 before_OF (param_wrap OF) (map param_wrap [SF; LN]) _ _ [] eq_refl (offset_fails _) M); eexists; reflexivity|].
    change (param_stmt inc pset0 [(T "a", x); (T "param", T "OF")] []) with (do s <- (do u <- py_float x; do w <- Err (A:=Qc) TypeError; Ok (SOF (Some u) (Some w))); Ok ([s], pset0, [] : text)). now rewrite Fx.
Qed.

Lemma mirror_read fs a b : (a = 0 \/ a = 1)%Z -> (b = 0 \/ b = 1)%Z -> parse_text fs ((T "%MIA" ++ show_int a ++ T "B" ++ show_int b ++ T "*%") ++ [nl]) = Ok ([SMI (Some a) (Some b)], pset0).
Proof. intros [ -> | -> ] [ -> | -> ]; reflexivity. Qed.
Lemma mirror_axis_missing fs a : (a = 0 \/ a = 1)%Z -> parse_text fs ((T "%MIA" ++ show_int a ++ T "*%") ++ [nl]) = Err TypeError.
Proof. intros [ -> | -> ]; reflexivity. Qed.

(** Whatever the scale factors are. *)
Lemma scale_fails q : Forall (fun r => re_match r (T "%SF" ++ q) = None) ([COORD_STMT; APERTURE_STMT] ++ before_OF ++ [param_wrap OF]).
Proof. repeat constructor. Qed.
Lemma scale_read fs n : Forall (fun x => ~ In x (T "%" ++ [nl; cr])) n -> parse_text fs ((T "%SF" ++ n ++ T "*%") ++ [nl]) = Ok ([SSF (Some 1) (Some 1)], pset0).
Proof.
  intros H. apply parse_single; [left; now apply (free_shape "SF")|]. intros inc.
  erewrite (param_step _ _ (before_OF ++ [param_wrap OF]) (param_wrap SF) (map param_wrap [LN])).
  2: reflexivity. 2: apply scale_fails. 2: apply (free_text_match "SF" "discarded"); [now apply inner_dot|discriminate].
  2: eexists; reflexivity. reflexivity.
Qed.

Lemma offset_written fs st a b : five_places a -> five_places b -> exists t, to_gerber st (SOF (Some a) (Some b)) = Ok t /\ parse_text fs (t ++ [nl]) = Ok ([SOF (Some a) (Some b)], pset0).
Proof.
  intros A B. destruct (step_offset (fun _ _ => Err IOError) st pset0 a b [] A B) as (t & E & _ & C). exists t. split; [exact E|]. apply parse_single; [exact C|].
  intros inc. destruct (step_offset inc st pset0 a b [] A B) as (t' & E' & P & _). rewrite E in E'. apply ok_inj in E'. subst t'. now rewrite app_nil_r in P.
Qed.

(** ** Evaluation *)

Lemma parameters_filtered fc : forall l st, rmap fst (evaluate_all fc st (filter (fun s => negb (image_parameter s || names_something s)) l)) = rmap fst (evaluate_all fc st l).
Proof.
  assert (B : forall (r : res (gst * list stmt)) s, rmap fst (do r' <- r; let '(st, l) := r' in Ok (st, s :: l)) = rmap fst r).
  { intros [[st l]|e] s; reflexivity. }
  induction l as [|s l IH]; intros st; [reflexivity|]. cbn [filter]. destruct (image_parameter s || names_something s) eqn:E; cbn [negb].
  - rewrite IH. destruct s; try discriminate E; cbn [evaluate_all evaluate evaluate_param bind]; now rewrite B.
  - cbn [evaluate_all]. destruct (evaluate fc st s) as [[st1 s1]|]; [|reflexivity]. cbn [bind]. rewrite !B. apply IH.
Qed.
