(** Properties of aperture macros (C13-C16, C60, C61). *)
From Verif Require Import PyBase QcLib NumModel NumSpec MacroModel MacroSpec MacroProofs.
Open Scope Qc_scope.

(** Literals and operands for the examples. *)
Definition five : term := TFac (FLit (mkLit (T "5") None)).
Definition two : term := TFac (FLit (mkLit (T "2") None)).
Definition half : term := TFac (FLit (mkLit (T "0") (Some (T "5")))).
Definition five_minus_two : exp := EAdd (ETerm five) Minus two.

(** ** C13 *)

(** The full statement "every well-formed expression evaluates to its value" is false: 5-2 is 0 in
    an equation, and in a modifier it is read as the two modifiers 5 and -2. *)
Theorem C13_macro_arithmetic_refuted :
  exp_ok five_minus_two /\ option_map this (exp_value (modifier_env []) five_minus_two) = Some (3 # 1)%Q /\
  (exists is, read_macro (T "$1=5-2*1,$1*") = Ok is /\
              eval_macro [] is (PSeq []) = Ok ([(1%Z, [MNum 0])], [])) /\
  (exists is a b, read_macro (T "1,5-2*") = Ok is /\ this a = (5 # 1)%Q /\ this b = (- 2 # 1)%Q /\
              eval_macro [] is (PSeq []) = Ok ([(1%Z, [MNum a; MNum b])], [])).
Proof.
  split; [|split; [reflexivity|split]].
  - assert (D : forall c, is_digit c = true -> c <> "0"%char -> lit_ok (mkLit [c] None)).
    { intros c Hc H0. split; [|split]; cbn; auto.
      - apply NumProofs.digit_string_iff. cbn. now rewrite Hc.
      - right. left. eauto. }
    split; apply D; try reflexivity; discriminate.
  - eexists. split; [vm_compute; reflexivity|]. vm_compute. reflexivity.
  - eexists. exists (Q2Qc (5 # 1)), (Q2Qc (- 2 # 1)).
    split; [vm_compute; reflexivity|]. split; [reflexivity|]. split; [reflexivity|]. vm_compute. reflexivity.
Qed.
Print Assumptions C13_macro_arithmetic_refuted.

(** What holds: whole macros (comments, primitives, equations), without binary minus and with a
    leading minus only before a literal, mean what they say. *)
Theorem C13_macro_arithmetic_partial : forall bs vs shared, Forall block_ok bs ->
  exists is, read_macro (macro_text bs) = Ok is /\
    eval_macro shared is (PSeq vs) = match macro_value (modifier_env vs) bs with
                                     | Some ps => Ok (ps, shared)
                                     | None => Err ZeroDivisionError
                                     end.
Proof. exact macro_meaning_lemma. Qed.
Print Assumptions C13_macro_arithmetic_partial.

(** A macro with precedence, parentheses, division, a leading minus, an equation and a comment. *)
Definition sample : list block :=
  [ BComment (T " sample");
    BAssign 3 (EAdd (ETerm (TMul five Times (FVar 1))) Plus
                    (TMul two Over (FPar (EAdd (ETerm (TFac (FVar 2))) Plus half))));
    BPrim 21 [(true, ETerm (TMul half TimesX (FVar 3))); (false, ETerm (TFac (FVar 4)))] ].
Example C13_ex_text : macro_text sample = T "0 sample*$3=5x$1+2/($2+0.5)*21,-0.5X$3,$4*".
Proof. reflexivity. Qed.
Lemma lit_ok_5 : lit_ok (mkLit (T "5") None).
Proof. split; [apply NumProofs.digit_string_iff; reflexivity|]. split; [exact I|]. right. left. eexists _, _. split; [reflexivity|discriminate]. Qed.
Lemma lit_ok_2 : lit_ok (mkLit (T "2") None).
Proof. split; [apply NumProofs.digit_string_iff; reflexivity|]. split; [exact I|]. right. left. eexists _, _. split; [reflexivity|discriminate]. Qed.
Lemma lit_ok_half : lit_ok (mkLit (T "0") (Some (T "5"))).
Proof. split; [apply NumProofs.digit_string_iff; reflexivity|]. split; [apply NumProofs.digit_string_iff; reflexivity|]. now left. Qed.
Example C13_ex_ok : Forall block_ok sample.
Proof.
  pose proof lit_ok_5. pose proof lit_ok_2. pose proof lit_ok_half.
  constructor; [|constructor; [|constructor; [|constructor]]].
  - split; cbn; intuition discriminate.
  - cbn. intuition lia.
  - split; [lia|]. split; [discriminate|]. constructor; [|constructor; [|constructor]].
    + split; [cbn; intuition lia|]. split; [cbn; auto|]. intros _. eexists. split; [reflexivity|discriminate].
    + split; [cbn; lia|]. split; [exact I|discriminate].
Qed.
(** With $1 = 2 and $2 = 1.5: $3 = 5*2 + 2/2 = 11, so the modifiers are -5.5 and 0. *)
Example C13_ex_value :
  option_map (map (fun p => (fst p, map (fun m => match m with MNum q => Some (this q) | MText _ => None end) (snd p))))
    (macro_value (modifier_env [Q2Qc 2; Q2Qc (3 # 2)]) sample)
  = Some [(0%Z, [None]); (21%Z, [Some (- 11 # 2)%Q; Some 0%Q])].
Proof. vm_compute. reflexivity. Qed.

(** ** C14 *)

(** The code of an expression (any operators) pushes one value that depends only on the variables,
    whatever the stack; below it nothing changes.  The value is the expression's when it has no
    binary minus. *)
Theorem C14_expression_pushes_one_value : forall n e, (0 <= n)%Z -> exp_ok e ->
  exists code, read_block (T "$" ++ show_nat n ++ T "=" ++ exp_text e) = Ok (code ++ [STORE n]) /\
    forall env d, (forall i, dict_get i d = MNum (env i)) ->
      (exists v, (exp_nosub e -> exp_value env e = Some v) /\
         forall k y rest, exec (k, d, y) (code ++ rest) = exec (MNum v :: k, d, y) rest) \/
      ((exp_nosub e -> exp_value env e = None) /\
         forall k y rest, exec (k, d, y) (code ++ rest) = Err ZeroDivisionError).
Proof. exact C14_lemma. Qed.
Print Assumptions C14_expression_pushes_one_value.

Example C14_ex : exp_ok five_minus_two /\ ~ exp_nosub five_minus_two.
Proof. split; [split; [exact lit_ok_5|exact lit_ok_2]|]. intros [H _]. discriminate. Qed.

(** A primitive takes the whole stack in order and leaves nothing for the next one. *)
Theorem C14_no_leak : forall l1 l2 c s k d y, exec s l1 = Ok (k, d, y) ->
  exec s (l1 ++ PRIM c :: l2) = exec ([], d, y ++ [(c, rev k)]) l2.
Proof. exact C14_no_leak_lemma. Qed.
Print Assumptions C14_no_leak.

Example C14_no_leak_ex : exec ([], [], []) [PUSH (MNum 0); PUSH (MNum 1)] = Ok ([MNum 1; MNum 0], [], []).
Proof. reflexivity. Qed.

(** ** C15 *)

(** $n is the n-th modifier, 0 when there is none. *)
Theorem C15_binding_and_default : forall n vs shared c, (0 <= n)%Z -> (1 <= c)%Z ->
  exists is, read_macro (show_nat c ++ T ",$" ++ show_nat n ++ T "*") = Ok is /\
    eval_macro shared is (PSeq vs) = Ok ([(c, [MNum (modifier_env vs n)])], shared).
Proof. exact C15_binding_lemma. Qed.
Print Assumptions C15_binding_and_default.

Example C15_ex : map this (map (modifier_env [Q2Qc 7; Q2Qc 8]) [0; 1; 2; 3]%Z) = [0; 7 # 1; 8 # 1; 0]%Q.
Proof. reflexivity. Qed.

(** An assignment is seen after it and not before it. *)
Theorem C15_scope : forall n e vs shared, (0 <= n)%Z -> exp_ok e -> exp_nosub e ->
  exists is, read_macro (T "1,$" ++ show_nat n ++ T "*$" ++ show_nat n ++ T "=" ++ exp_text e ++ T "*1,$" ++ show_nat n ++ T "*") = Ok is /\
    eval_macro shared is (PSeq vs) =
    match exp_value (modifier_env vs) e with
    | Some v => Ok ([(1%Z, [MNum (modifier_env vs n)]); (1%Z, [MNum v])], shared)
    | None => Err ZeroDivisionError
    end.
Proof. exact C15_scope_lemma. Qed.
Print Assumptions C15_scope.

(** Building one aperture never affects another: with positional modifiers the result does not
    depend on the persistent default dictionary, and leaves it alone. *)
Theorem C15_isolated : forall l vs shared shared',
  eval_macro shared l (PSeq vs) = rmap (fun p => (fst p, shared)) (eval_macro shared' l (PSeq vs)).
Proof. exact C15_isolated_lemma. Qed.
Print Assumptions C15_isolated.

(** Without modifiers the shared default dictionary does leak from one evaluation to the next. *)
Example C15_default_leaks : exists is is' d,
  read_macro (T "$1=5*") = Ok is /\ read_macro (T "1,$1*") = Ok is' /\
  eval_macro [] is PDefault = Ok ([], d) /\
  rmap fst (eval_macro d is' PDefault) <> rmap fst (eval_macro [] is' PDefault).
Proof.
  eexists _, _, _. split; [vm_compute; reflexivity|]. split; [vm_compute; reflexivity|].
  split; [vm_compute; reflexivity|]. vm_compute. discriminate.
Qed.

(** ** C16 *)

(** An unmatched closing parenthesis in an equation or in the modifiers of a primitive. *)
Theorem C16_unmatched_rejected_equation : forall s,
  In "="%char s -> unmatched 0 s = true -> read_block s = Err ValueError.
Proof. exact C16_reject_equation. Qed.
Print Assumptions C16_unmatched_rejected_equation.

Theorem C16_unmatched_rejected_primitive : forall c tail, (1 <= c)%Z ->
  unmatched 0 tail = true -> read_block (show_nat c ++ T "," ++ tail) = Err ValueError.
Proof. exact C16_reject_primitive. Qed.
Print Assumptions C16_unmatched_rejected_primitive.

Example C16_ex : unmatched 0 (T "1,(2+3)),4") = true.
Proof. reflexivity. Qed.

(** If every closing parenthesis has its partner in the same modifier, the parentheses are never the
    reason of a failure: the block is accepted whenever the text without parentheses is. *)
Theorem C16_balanced_accepted : forall s, unmatched 0 s = false ->
  is_ok (read_block (no_parens s)) = true -> is_ok (read_block s) = true.
Proof. exact C16_balanced_lemma. Qed.
Print Assumptions C16_balanced_accepted.

Example C16_balanced_ex : unmatched 0 (T "1,((2+3)x4),(4)") = false /\
  is_ok (read_block (no_parens (T "1,((2+3)x4),(4)"))) = true.
Proof. split; reflexivity. Qed.

(** ** C60: comments *)

(** False for a comment with an equals sign: it is read as an equation, changes a variable, and even
    adds a modifier to the next primitive. *)
Theorem C60_macro_comments_refuted : exists is is' p,
  read_macro (T "0 set $1=7*1,$1*") = Ok is /\ read_macro (T "1,$1*") = Ok is' /\
  eval_macro [] is (PSeq [zq 2]) = Ok ([p], []) /\ List.length (snd p) = 2%nat /\
  rmap fst (eval_macro [] is' (PSeq [zq 2])) = Ok [(1%Z, [MNum (zq 2)])].
Proof.
  eexists _, _, _. split; [vm_compute; reflexivity|]. split; [vm_compute; reflexivity|].
  split; [vm_compute; reflexivity|]. split; [reflexivity|]. vm_compute. reflexivity.
Qed.
Print Assumptions C60_macro_comments_refuted.

Theorem C60_macro_comments_partial : forall bs vs shared s, Forall block_ok bs ->
  ~ In "*"%char s -> ~ In "="%char s -> forall bs', Forall block_ok bs' ->
  exists is is', read_macro (macro_text (bs ++ BComment s :: bs')) = Ok is /\
    read_macro (macro_text (bs ++ bs')) = Ok is' /\
    rmap (fun p => filter (fun x => negb (fst x =? 0)%Z) (fst p)) (eval_macro shared is (PSeq vs)) =
    rmap (fun p => filter (fun x => negb (fst x =? 0)%Z) (fst p)) (eval_macro shared is' (PSeq vs)).
Proof. exact C60_lemma. Qed.
Print Assumptions C60_macro_comments_partial.

(** ** C61: leading minus *)

(** False in front of a variable: the minus is lost there and applied to a later literal. *)
Theorem C61_leading_minus_refuted : exists is l,
  read_macro (T "1,1,-$1,0,5*") = Ok is /\ eval_macro [] is (PSeq [zq 2]) = Ok ([(1%Z, l)], []) /\
  map (fun m => match m with MNum q => Some (this q) | MText _ => None end) l
  = [Some (1 # 1); Some (2 # 1); Some 0; Some (- 5 # 1)]%Q.
Proof.
  eexists _, _. split; [vm_compute; reflexivity|]. split; [vm_compute; reflexivity|]. reflexivity.
Qed.
Print Assumptions C61_leading_minus_refuted.

(** In front of a literal other than 0 it negates the first term. *)
Theorem C61_leading_minus_partial : forall c e vs shared l, (1 <= c)%Z -> exp_ok e -> exp_nosub e ->
  exp_first e = FLit l -> l <> mkLit (T "0") None ->
  exists is, read_macro (show_nat c ++ T ",-" ++ exp_text e ++ T "*") = Ok is /\
    eval_macro shared is (PSeq vs) = match neg_value (modifier_env vs) e with
                                     | Some v => Ok ([(c, [MNum v])], shared)
                                     | None => Err ZeroDivisionError
                                     end.
Proof. exact C61_lemma. Qed.
Print Assumptions C61_leading_minus_partial.
