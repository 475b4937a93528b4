(** What aperture macros mean: syntax of macro expressions and blocks, and their values.
    Independent of the reader and the evaluator (only the result type [mval] is shared). *)
From Verif Require Import PyBase QcLib NumModel NumSpec MacroModel.
Open Scope Qc_scope.

(** ** Syntax: the usual expression grammar *)

(** A decimal literal: integer digits, and optionally a point with decimals. *)
Record lit := mkLit { l_int : text; l_dec : option text }.

Inductive addop := Plus | Minus.
Inductive mulop := Times | TimesX | Over.       (* TimesX is the upper-case spelling *)

Inductive fac := FLit (l : lit) | FVar (n : Z) | FPar (e : exp)
with term := TFac (f : fac) | TMul (t : term) (o : mulop) (f : fac)
with exp := ETerm (t : term) | EAdd (e : exp) (o : addop) (t : term).

(** Literals without superfluous leading zeros: '0', '12', '0.5', '.5', '12.', ... *)
Definition lit_ok (l : lit) : Prop :=
  digit_string (l_int l) /\
  (match l_dec l with Some d => digit_string d | None => True end) /\
  (l_int l = T "0" \/
   (exists c r, l_int l = c :: r /\ c <> "0"%char) \/
   (l_int l = [] /\ exists c r, l_dec l = Some (c :: r))).

Fixpoint fac_ok (f : fac) : Prop :=
  match f with FLit l => lit_ok l | FVar n => (0 <= n)%Z | FPar e => exp_ok e end
with term_ok (t : term) : Prop :=
  match t with TFac f => fac_ok f | TMul t _ f => term_ok t /\ fac_ok f end
with exp_ok (e : exp) : Prop :=
  match e with ETerm t => term_ok t | EAdd e _ t => exp_ok e /\ term_ok t end.

(** No binary minus. *)
Fixpoint fac_nosub (f : fac) : Prop :=
  match f with FPar e => exp_nosub e | _ => True end
with term_nosub (t : term) : Prop :=
  match t with TFac f => fac_nosub f | TMul t _ f => term_nosub t /\ fac_nosub f end
with exp_nosub (e : exp) : Prop :=
  match e with ETerm t => term_nosub t | EAdd e o t => o = Plus /\ exp_nosub e /\ term_nosub t end.

(** ** Texts *)

Definition lit_text (l : lit) : text :=
  l_int l ++ match l_dec l with Some d => T "." ++ d | None => [] end.
Definition addop_text (o : addop) : text := match o with Plus => T "+" | Minus => T "-" end.
Definition mulop_text (o : mulop) : text :=
  match o with Times => T "x" | TimesX => T "X" | Over => T "/" end.

Fixpoint fac_text (f : fac) : text :=
  match f with
  | FLit l => lit_text l
  | FVar n => T "$" ++ show_nat n
  | FPar e => T "(" ++ exp_text e ++ T ")"
  end
with term_text (t : term) : text :=
  match t with TFac f => fac_text f | TMul t o f => term_text t ++ mulop_text o ++ fac_text f end
with exp_text (e : exp) : text :=
  match e with ETerm t => term_text t | EAdd e o t => exp_text e ++ addop_text o ++ term_text t end.

(** ** Values; [None] is a division by zero *)

Definition lit_value (l : lit) : Qc :=
  let d := match l_dec l with Some d => d | None => [] end in
  grid (int_of (l_int l ++ d)) (List.length d).

Definition apply_mul (o : mulop) (a b : Qc) : option Qc :=
  match o with
  | Times | TimesX => Some (a * b)
  | Over => if qceq b 0 then None else Some (a / b)
  end.
Definition apply_add (o : addop) (a b : Qc) : Qc :=
  match o with Plus => a + b | Minus => a - b end.

Section Value.
Variable env : Z -> Qc.
Fixpoint fac_value (f : fac) : option Qc :=
  match f with
  | FLit l => Some (lit_value l)
  | FVar n => Some (env n)
  | FPar e => exp_value e
  end
with term_value (t : term) : option Qc :=
  match t with
  | TFac f => fac_value f
  | TMul t o f =>
      match term_value t, fac_value f with
      | Some a, Some b => apply_mul o a b
      | _, _ => None
      end
  end
with exp_value (e : exp) : option Qc :=
  match e with
  | ETerm t => term_value t
  | EAdd e o t =>
      match exp_value e, term_value t with
      | Some a, Some b => Some (apply_add o a b)
      | _, _ => None
      end
  end.
(** A leading minus negates the first term. *)
Fixpoint neg_value (e : exp) : option Qc :=
  match e with
  | ETerm t => option_map Qcopp (term_value t)
  | EAdd e o t =>
      match neg_value e, term_value t with
      | Some a, Some b => Some (apply_add o a b)
      | _, _ => None
      end
  end.
End Value.

(** ** Modifiers, blocks, macros *)

(** A modifier: an expression with an optional leading minus. *)
Definition modifier := (bool * exp)%type.
Definition mod_text (m : modifier) : text := (if fst m then T "-" else []) ++ exp_text (snd m).
Definition mod_value (env : Z -> Qc) (m : modifier) : option Qc :=
  if fst m then neg_value env (snd m) else exp_value env (snd m).

(** The leftmost operand of an expression. *)
Fixpoint term_first (t : term) : fac := match t with TFac f => f | TMul t _ _ => term_first t end.
Fixpoint exp_first (e : exp) : fac := match e with ETerm t => term_first t | EAdd e _ _ => exp_first e end.

(** Modifiers handled correctly by the reader: no binary minus; a leading minus only in front of a
    literal other than '0'. *)
Definition mod_ok (m : modifier) : Prop :=
  exp_ok (snd m) /\ exp_nosub (snd m) /\
  (fst m = true -> exists l, exp_first (snd m) = FLit l /\ l <> mkLit (T "0") None).

Inductive block :=
| BComment (s : text)
| BPrim (code : Z) (mods : list modifier)
| BAssign (n : Z) (e : exp).

Definition block_text (b : block) : text :=
  match b with
  | BComment s => T "0" ++ s
  | BPrim c ms => show_nat c ++ List.concat (map (fun m => T "," ++ mod_text m) ms)
  | BAssign n e => T "$" ++ show_nat n ++ T "=" ++ exp_text e
  end.
(** Every block is terminated by '*'. *)
Definition macro_text (bs : list block) : text := List.concat (map (fun b => block_text b ++ T "*") bs).

Definition block_ok (b : block) : Prop :=
  match b with
  | BComment s => ~ In "*"%char s /\ ~ In "="%char s
  | BPrim c ms => (1 <= c)%Z /\ ms <> [] /\ Forall mod_ok ms
  | BAssign n e => (0 <= n)%Z /\ exp_ok e /\ exp_nosub e
  end.

Fixpoint all_some {A} (l : list (option A)) : option (list A) :=
  match l with
  | [] => Some []
  | Some a :: r => option_map (cons a) (all_some r)
  | None :: _ => None
  end.

Definition update (env : Z -> Qc) (n : Z) (v : Qc) : Z -> Qc := fun k => if (k =? n)%Z then v else env k.

(** The primitives a macro denotes: code and modifiers of each primitive, in order.  An assignment
    is seen by the blocks after it. *)
Fixpoint macro_value (env : Z -> Qc) (bs : list block) : option (list (Z * list mval)) :=
  match bs with
  | [] => Some []
  | BComment s :: r => option_map (cons (0%Z, [MText (strip s)])) (macro_value env r)
  | BPrim c ms :: r =>
      match all_some (map (mod_value env) ms) with
      | Some vs => option_map (cons (c, map MNum vs)) (macro_value env r)
      | None => None
      end
  | BAssign n e :: r =>
      match exp_value env e with
      | Some v => macro_value (update env n v) r
      | None => None
      end
  end.

(** Variable $n is the n-th modifier of the aperture definition, 0 if there is none. *)
Definition modifier_env (vs : list Qc) : Z -> Qc :=
  fun n => if (n <? 1)%Z then 0 else nth (Z.to_nat (n - 1)) vs 0.

(** ** Parentheses *)

(** Scanning [s] with [d] parentheses open in the current modifier: does a closing parenthesis
    without a partner occur?  A comma ends the modifier. *)
Fixpoint unmatched (d : nat) (s : text) : bool :=
  match s with
  | [] => false
  | c :: r =>
      if ceq c "("%char then unmatched (S d) r
      else if ceq c ")"%char then match d with O => true | S d' => unmatched d' r end
      else if ceq c ","%char then unmatched 0 r
      else unmatched d r
  end.

(** The same text with every parenthesis blanked out. *)
Definition no_parens (s : text) : text :=
  map (fun c => if ceq c "("%char || ceq c ")"%char then " "%char else c) s.
