(** Model of aperture-macro reading and evaluation: gerber/am_read.py, gerber/am_eval.py. *)
From Verif Require Import PyBase QcLib NumModel.
Open Scope Qc_scope.

(** Values on the evaluation stack: numbers, or the text of a comment primitive. *)
Inductive mval := MNum (v : Qc) | MText (s : text).

(** am_eval.py:22-30 OpCode with its argument; [NOOP] is the pair (None, None) that read_macro emits
    for a left parenthesis that is flushed (token_to_opcode returns None, am_read.py:48-49). *)
Inductive instr :=
| PUSH (v : mval) | LOAD (n : Z) | STORE (n : Z)
| ADD | SUB | MUL | DIV | PRIM (code : Z) | NOOP.

(** am_read.py:39-49 token_to_opcode. *)
Definition token_to_opcode (c : ascii) : instr :=
  if ceq c "+"%char then ADD
  else if ceq c "-"%char then SUB
  else if ceq c "x"%char || ceq c "X"%char then MUL
  else if ceq c "/"%char then DIV
  else NOOP.

(** am_read.py:52-58 precedence. *)
Definition precedence (c : ascii) : nat :=
  if ceq c "+"%char || ceq c "-"%char then 1
  else if ceq c "x"%char || ceq c "X"%char || ceq c "/"%char then 2
  else 0.

(** am_read.py:61-62 is_op. *)
Definition is_op (c : ascii) : bool :=
  ceq c "+"%char || ceq c "-"%char || ceq c "x"%char || ceq c "X"%char || ceq c "/"%char.

(** am_read.py:92-96 Scanner.readint: the digits at the scanner position; [int("")] is ValueError.
    A scanner is modelled by the text that remains to be read. *)
Definition readint (s : text) : res (Z * text) :=
  let (a, r) := span_digits s in
  match a with [] => Err ValueError | _ => Ok (dval a, r) end.

Fixpoint span_num (s : text) : text * text :=
  match s with
  | c :: s' => if is_digit c || ceq c "."%char then let (a, b) := span_num s' in (c :: a, b) else ([], s)
  | [] => ([], [])
  end.

(** am_read.py:98-105 Scanner.readfloat. *)
Definition readfloat (s : text) : res (Qc * text) :=
  let (a, r) := span_num s in
  if teq a (T ".") then Ok (0, r)
  else do v <- py_float a; Ok (v, r).

(** am_read.py:107-111 Scanner.readstr("*"): blocks contain no '*', so it reads to the end. *)
Definition readstr (s : text) : text := strip s.

(** am_read.py:125-145: the local variables of one block. [ops] has the stack top first. *)
Record bst := mkB {
  b_out : list instr;            (* instructions appended so far (in this block) *)
  b_ops : list ascii;
  b_lhs_found : bool; b_code_found : bool;
  b_lhs : Z; b_code : Z;
  b_uma : bool;                  (* unary_minus_allowed *)
  b_um : bool }.                 (* unary_minus *)

Definition emit (i : list instr) (b : bst) : bst :=
  mkB (b_out b ++ i) (b_ops b) (b_lhs_found b) (b_code_found b) (b_lhs b) (b_code b) (b_uma b) (b_um b).
Definition with_ops (o : list ascii) (b : bst) : bst :=
  mkB (b_out b) o (b_lhs_found b) (b_code_found b) (b_lhs b) (b_code b) (b_uma b) (b_um b).
Definition with_lhs_found (b : bst) : bst :=
  mkB (b_out b) (b_ops b) true (b_code_found b) (b_lhs b) (b_code b) (b_uma b) (b_um b).
Definition with_code_found (b : bst) : bst :=
  mkB (b_out b) (b_ops b) (b_lhs_found b) true (b_lhs b) (b_code b) (b_uma b) (b_um b).
Definition with_lhs (n : Z) (b : bst) : bst :=
  mkB (b_out b) (b_ops b) (b_lhs_found b) (b_code_found b) n (b_code b) (b_uma b) (b_um b).
Definition with_code (n : Z) (b : bst) : bst :=
  mkB (b_out b) (b_ops b) (b_lhs_found b) (b_code_found b) (b_lhs b) n (b_uma b) (b_um b).
Definition with_uma (u : bool) (b : bst) : bst :=
  mkB (b_out b) (b_ops b) (b_lhs_found b) (b_code_found b) (b_lhs b) (b_code b) u (b_um b).
Definition with_um (u : bool) (b : bst) : bst :=
  mkB (b_out b) (b_ops b) (b_lhs_found b) (b_code_found b) (b_lhs b) (b_code b) (b_uma b) u.

(** am_read.py:167-168, 233-234: pop the whole operator stack. *)
Definition flush (b : bst) : bst := with_ops [] (emit (map token_to_opcode (b_ops b)) b).

(** am_read.py:178-179: pop operators of higher or equal precedence. *)
Fixpoint pop_higher (c : ascii) (ops : list ascii) : list ascii * list ascii :=
  match ops with
  | o :: r => if is_op o && (precedence c <=? precedence o)%nat
              then let (p, q) := pop_higher c r in (o :: p, q) else ([], ops)
  | [] => ([], [])
  end.

(** am_read.py:187-188: pop until a left parenthesis is on top. *)
Fixpoint pop_paren (ops : list ascii) : list ascii * list ascii :=
  match ops with
  | o :: r => if ceq o "("%char then ([], ops) else let (p, q) := pop_paren r in (o :: p, q)
  | [] => ([], [])
  end.

(** am_read.py:159-230: one iteration of the scanning loop on character [c] with [r] remaining;
    returns the new locals and what remains. *)
Definition step (is_eq : bool) (b : bst) (c : ascii) (r : text) : res (bst * text) :=
  if ceq c ","%char then Ok (with_uma true (flush (with_code_found b)), r)            (* 163-170 *)
  else if is_op c then                                                                (* 172-182 *)
    if ceq c "-"%char && b_uma b then Ok (with_uma false (with_um true b), r)
    else let (p, q) := pop_higher c (b_ops b) in
         Ok (with_ops (c :: q) (emit (map token_to_opcode p) b), r)
  else if ceq c "("%char then Ok (with_ops (c :: b_ops b) b, r)                       (* 183-184 *)
  else if ceq c ")"%char then                                                         (* 186-194 *)
    let (p, q) := pop_paren (b_ops b) in
    match q with
    | [] => Err ValueError
    | _ :: q' => Ok (with_ops q' (emit (map token_to_opcode p) b), r)
    end
  else if ceq c "$"%char then                                                         (* 196-202 *)
    do (n, r') <- readint r;
    if is_eq && negb (b_lhs_found b) then Ok (with_lhs n b, r') else Ok (emit [LOAD n] b, r')
  else if ceq c "="%char then Ok (with_lhs_found b, r)                                (* 204-205 *)
  else if ceq c "0"%char then                                                         (* 207-214 *)
    if negb is_eq && negb (b_code_found b) then
      Ok (with_code_found (emit [PUSH (MText (readstr r))] b), [])
    else match r with
         | d :: _ => if ceq d "."%char then Ok (b, r) else Ok (emit [PUSH (MNum 0)] b, r)
         | [] => Ok (emit [PUSH (MNum 0)] b, r)
         end
  else if is_digit c || ceq c "."%char then                                           (* 216-227 *)
    if negb is_eq && negb (b_code_found b) then
      do (n, r') <- readint (c :: r); Ok (with_code n b, r')
    else
      do (n, r') <- readfloat (c :: r);
      Ok (if b_um b then emit [PUSH (MNum (n * - (1)))] (with_um false b) else emit [PUSH (MNum n)] b, r')
  else Ok (b, r).                                                                     (* 228-230 *)

(** am_read.py:159: [while not scanner.eof()].  Every iteration consumes a character, so a fuel of
    one more than the length suffices (proved: [loop_fuel]). *)
Fixpoint loop (fuel : nat) (is_eq : bool) (b : bst) (s : text) : res bst :=
  match fuel with
  | O => Err GenericException
  | S f => match s with
           | [] => Ok b
           | c :: r => do (b', r') <- step is_eq b c r; loop f is_eq b' r'
           end
  end.

Definition b_init : bst := mkB [] [] false false 0 0 false false.

(** am_read.py:123-241: one block of the macro. *)
Definition read_block (block : text) : res (list instr) :=
  let is_eq := char_in "="%char block in                                              (* 137-140 *)
  do b <- loop (S (List.length block)) is_eq b_init block;
  let b := flush b in                                                                 (* 232-234 *)
  Ok (b_out b ++
      (if negb is_eq && b_code_found b then [PRIM (b_code b)] else []) ++             (* 237-238 *)
      (if is_eq then [STORE (b_lhs b)] else [])).                                     (* 240-241 *)

(** am_read.py:120-243 read_macro. *)
Definition read_macro (macro : text) : res (list instr) :=
  do l <- mapM read_block (split_on "*"%char macro); Ok (List.concat l).

(** ** Evaluation *)

(** The parameter dictionary. *)
Definition dict := list (Z * mval).
(** [parameters.get(n, 0)]. *)
Fixpoint dict_get (n : Z) (d : dict) : mval :=
  match d with
  | (k, v) :: r => if (k =? n)%Z then v else dict_get n r
  | [] => MNum 0
  end.
(** [parameters[n] = v]: the newest binding is found first. *)
Definition dict_set (n : Z) (v : mval) (d : dict) : dict := (n, v) :: d.

(** am_eval.py:56-61: positional parameters. *)
Fixpoint enumerate_from (i : Z) (l : list Qc) : dict :=
  match l with [] => [] | v :: r => (i, MNum v) :: enumerate_from (i + 1) r end.
Definition positional_params (l : list Qc) : dict := enumerate_from 1 l.

(** Binary arithmetic of the evaluator.  Simplification: any arithmetic on a comment text is a
    TypeError (python would concatenate two texts); numbers are exact rationals. *)
Definition arith (f : Qc -> Qc -> res mval) (op2 op1 : mval) : res mval :=
  match op2, op1 with
  | MNum a, MNum b => f a b
  | _, _ => Err TypeError
  end.

(** State: stack (top first), dictionary, primitives yielded so far (in order).
    Simplification: a yielded primitive is the pair (code, modifiers) instead of the text
    "%d,%s" which from_gerber splits at commas and converts back with float(). *)
Definition est := (list mval * dict * list (Z * list mval))%type.

Definition pop2 (f : Qc -> Qc -> res mval) (s : est) : res est :=
  match s with
  | (op1 :: op2 :: k, d, y) => do v <- arith f op2 op1; Ok (v :: k, d, y)
  | _ => Err IndexError
  end.

(** am_eval.py:77-109: one instruction. *)
Definition exec1 (s : est) (i : instr) : res est :=
  let '(k, d, y) := s in
  match i with
  | PUSH v => Ok (v :: k, d, y)
  | LOAD n => Ok (dict_get n d :: k, d, y)
  | STORE n => match k with v :: k' => Ok (k', dict_set n v d, y) | [] => Err IndexError end
  | ADD => pop2 (fun op2 op1 => Ok (MNum (op2 + op1))) s
  | SUB => pop2 (fun op2 op1 => Ok (MNum (op2 - op2))) s     (* am_eval.py:95 subtracts op2 *)
  | MUL => pop2 (fun op2 op1 => Ok (MNum (op2 * op1))) s
  | DIV => pop2 (fun op2 op1 => if qceq op1 0 then Err ZeroDivisionError else Ok (MNum (op2 / op1))) s
  | PRIM c => Ok ([], d, y ++ [(c, rev k)])
  | NOOP => Ok s
  end.

Fixpoint exec (s : est) (l : list instr) : res est :=
  match l with
  | [] => Ok s
  | i :: r => do s' <- exec1 s i; exec s' r
  end.

(** How [parameters] is given: omitted (the shared default dictionary), positionally, or as a
    dictionary object. *)
Inductive params := PDefault | PSeq (l : list Qc) | PDict (d : dict).

(** am_eval.py:54-109 eval_macro: the primitives yielded, and the state of the shared default
    dictionary afterwards. *)
Definition eval_macro (shared : dict) (l : list instr) (p : params) : res (list (Z * list mval) * dict) :=
  match p with
  | PDefault => do (_, d, y) <- exec ([], shared, []) l; Ok (y, d)
  | PSeq vs => do (_, _, y) <- exec ([], positional_params vs, []) l; Ok (y, shared)
  | PDict d => do (_, _, y) <- exec ([], d, []) l; Ok (y, shared)
  end.
