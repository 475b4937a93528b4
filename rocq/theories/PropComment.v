(** Comments in macros and the primitives built from them. *)
From Verif Require Import PyBase QcLib NumModel MacroModel MacroSpec GerberText AmModel AmExamples CommentBuild.
Open Scope list_scope.
Open Scope Qc_scope.

(** ** C60: the primitives built are the same, with a comment more; if they cannot be built the error is the same. *)
Theorem C60_built_partial : forall bs vs s bs', Forall block_ok bs -> ~ In "*"%char s -> ~ In "="%char s -> Forall block_ok bs' ->
  exists is is', read_macro (macro_text (bs ++ BComment s :: bs')) = Ok is /\ read_macro (macro_text (bs ++ bs')) = Ok is' /\
    match am_build is' vs with
    | Ok ps => exists a b t, ps = a ++ b /\ am_build is vs = Ok (a ++ AComment t :: b)
    | Err e => am_build is vs = Err e
    end.
Proof. exact comment_built. Qed.
Print Assumptions C60_built_partial.

Definition made (t : text) : res (list (list Q * text)) := do i <- read_macro t; do l <- am_build i [1]; Ok (map nums l).
Example C60_ex_built : made (T "0 a pad*1,1,$1,0,0*") = Ok [([], T ",a pad"); ([1; 0; 0]%Q, [])] /\ made (T "1,1,$1,0,0*") = Ok [([1; 0; 0]%Q, [])].
Proof. split; vm_compute; reflexivity. Qed.
