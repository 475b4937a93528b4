(** Format statements of Gerber files with all their parts. *)
From Verif Require Import PyBase NumModel GerberText.
Import ListNotations.
Open Scope list_scope.

Definition word (allowed : string) (t : text) : Prop := Forall (fun c => In c (T allowed)) t.
(** The digits from 0 to 7 *)
Definition octal (n : nat) : ascii := nth n (T "01234567") "0"%char.
(** FS, the zeros left out (L: leading, T: trailing, D or nothing: none), the notation (absolute or incremental), the
    length of sequence numbers and preparatory codes, the numbers of digits of x and y before and after the decimal
    point, the length of draft and miscellaneous codes. *)
Inductive format_statement : zmode -> bool -> fmt -> fmt -> text -> Prop :=
| format_parts z ab a b c d zs nt m e :
    In (zs, z) [([], NoSupp); (T "D", NoSupp); (T "L", Leading); (T "T", Trailing)] ->
    In (nt, ab) [(T "A", true); (T "I", false)] ->
    word "NG0123456789" m -> word "DM0123456789" e -> (a < 8 -> b < 8 -> c < 8 -> d < 8 ->
    format_statement z ab (a, b) (c, d) (T "%FS" ++ zs ++ nt ++ m ++ T "X" ++ [octal a; octal b] ++ T "Y" ++ [octal c; octal d] ++ e ++ T "*%"))%nat.
(** At most six digits before the decimal point, and at least one *)
Definition possible (f : fmt) : Prop := (fst f <= 6 /\ snd f <= 7 /\ 1 <= fst f + snd f)%nat.
