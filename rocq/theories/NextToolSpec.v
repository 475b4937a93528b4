(** What tool changes in drill programs are expected to do. *)
From Verif Require Import PyBase QcLib GerberText ExcellonModel ExcellonSpec.
Import ListNotations.
Open Scope list_scope.

(** A program in which tools are also changed without giving their number. *)
Inductive step := Do (x : instr) | Change.
Inductive step_says (i d : nat) (z : zkind) : step -> text -> Prop :=
| says_do x t : says i d z x t -> step_says i d z (Do x) t
| says_change : step_says i d z Change (T "M00").
(** The tool in use after an instruction *)
Definition in_use (x : instr) (cur : option Z) : option Z :=
  match x with
  | Use n => if (n =? 0)%Z then cur else Some n
  | At _ _ => match cur with Some n => Some n | None => Some 1%Z end
  | _ => cur
  end.
(** The same program with every change spelled out: the tool of the next number is selected. *)
Fixpoint spelled (cur : option Z) (l : list step) : list instr :=
  match l with
  | [] => []
  | Do x :: l' => x :: spelled (in_use x cur) l'
  | Change :: l' => let n := match cur with Some n => n | None => 0%Z end in Use (n + 1) :: spelled (Some (n + 1)%Z) l'
  end.
(** Changes come with a tool in use, and the next tool is defined or has been selected before. *)
Fixpoint changes_known (known : Z -> bool) (cur : option Z) (l : list step) : Prop :=
  match l with
  | [] => True
  | Do x :: l' => changes_known (match x with Use k => fun m => (m =? k)%Z && negb (k =? 0)%Z || known m | _ => known end) (in_use x cur) l'
  | Change :: l' => match cur with Some n => known (n + 1)%Z = true /\ changes_known known (Some (n + 1)%Z) l' | None => False end
  end.
