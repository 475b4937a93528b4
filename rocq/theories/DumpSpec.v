(** What a listing of statements is. *)
From Verif Require Import PyBase QcLib NumModel NumSpec GerberText.
Import ListNotations.
Open Scope list_scope.

(** A text without line breaks *)
Definition in_one_line (t : text) : Prop := Forall (fun c => c <> ascii_of_nat 10 /\ c <> ascii_of_nat 13) t.
(** The text made of the given lines *)
Definition text_of_lines (ls : list text) : text := List.concat (map (fun l => l ++ [ascii_of_nat 10]) ls).
(** A text in angle brackets *)
Definition bracketed (t : text) : Prop := exists m, t = T "<" ++ m ++ T ">".

(** Two numbers that differ by at most the [k]-th part of the sum of their sizes, or by at most the [k]-th part of one *)
Definition nearly (k : Z) (a b : Qc) : Prop := (qabs (a - b) * zq k <= qabs a + qabs b)%Qc.
Definition close (k : Z) (a b : Qc) : Prop := (qabs (a - b) * zq k <= 1)%Qc.
(** Two numbers in that relation, or none on both sides *)
Definition both (near : Qc -> Qc -> Prop) (v v' : option Qc) : Prop :=
  match v, v' with Some a, Some b => near a b | None, None => True | _, _ => False end.
(** A code that is a single word, or begins with D, or is missing *)
Definition one_word (o : option text) : Prop := match o with Some t => t <> [] /\ ~ In " "%char t | None => True end.
Definition d_code (o : option text) : Prop := match o with Some t => exists r, t = "D"%char :: r | None => True end.
(** The names the listing has for the standard shapes *)
Definition shape_name (t : text) : Prop := In t [T "circle"; T "rectangle"; T "obround"].

(** Two statements of the same kind with the same numbers, names, modes and texts, except for: the operands of scale
    factors and coordinates (the same up to the sixth digit), offsets (up to the sixth place), the modifiers of
    apertures, deprecated forms of statements, and macros that are called like a standard shape or whose names
    contain a colon. *)
Definition agree (s s' : stmt) : Prop :=
  match s, s' with
  | SFS zs abs f, SFS zs' abs' f' => zs = zs' /\ abs = abs' /\ f = f'
  | SMO _ u, SMO _ u' => u = u'
  | SLP p, SLP p' => p = p'
  | SAD d t _, SAD d' t' _ => d = d' /\ (~ shape_name t -> ~ shape_name t' -> t = t')
  | SAM n m _, SAM n' m' _ => ~ In ":"%char n -> ~ In ":"%char n' -> n = n' /\ m = m'
  | SAp d _, SAp d' _ => d = d'
  | SAS t, SAS t' | SIN t, SIN t' | SLN t, SLN t' | SDep t, SDep t' | SCom t, SCom t' | SUnk t, SUnk t' => t = t'
  | SIP p, SIP p' => p = p'
  | SIR a, SIR a' => a = a'
  | SMI a b, SMI a' b' => a = a' /\ b = b'
  | SQuad q, SQuad q' => q = q'
  | SReg m, SReg m' => m = m'
  | SEof, SEof => True
  | SOF a b, SOF a' b' => both (close 1000000) a a' /\ both (close 1000000) b b'
  | SSF a b, SSF a' b' => both (nearly 200000) a a' /\ both (nearly 200000) b b'
  | SCoord fn x y i j op, SCoord fn' x' y' i' j' op' =>
      one_word fn -> one_word fn' -> d_code op -> d_code op' ->
      fn = fn' /\ both (nearly 200000) x x' /\ both (nearly 200000) y y' /\ both (nearly 200000) i i' /\
      both (nearly 200000) j j' /\ op = op'
  | _, _ => False
  end.
