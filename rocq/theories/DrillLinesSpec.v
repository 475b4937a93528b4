(** What the control statements of drill files are expected to do. *)
From Verif Require Import PyBase QcLib NumSpec ExcellonModel ExcellonSpec.
From Verif Require Import GerberText.
Import ListNotations.
Open Scope list_scope.
Open Scope Qc_scope.

Definition contains (word s : text) : Prop := exists a b, s = a ++ word ++ b.
(** Comments in which nothing is recognised *)
Definition plain_comment (c : text) : Prop :=
  match c with x :: _ => x <> ";"%char | [] => True end /\
  forall w, In w [T "FILE_FORMAT"; T "TYPE=PLATED"; T "TYPE=NON_PLATED"; T "HEADER:"; T " Holesize "] -> ~ contains w c.
(** Statements without coordinates; [u] are the units of the file. *)
Inductive control (u : unit_) : estmt -> Prop :=
| c_begin : control u EHeaderBegin
| c_end : control u EHeaderEnd
| c_rewind : control u ERewind
| c_down : control u EZRout
| c_up_clamped : control u ERetractC
| c_up : control u ERetract
| c_comp_off : control u ECutOff
| c_comp_left : control u ECutLeft
| c_comp_right : control u ECutRight
| c_units z : control u (EUnit u z None)
| c_incremental on : control u (EInc on)
| c_version n : n = 1%Z \/ n = 2%Z -> control u (EVer n)
| c_format n : n = 1%Z \/ n = 2%Z -> control u (EFmat n)
| c_measure : control u (EMeasure u)
| c_drill : control u EDrill
| c_absolute : control u EAbs
| c_feed n : (0 <= n)%Z -> control u (EFeed n)
| c_comment c : plain_comment c -> control u (EComment c).
(** What a reader remembers besides statements, tools, hits and the position. *)
Record modes := mkModes { m_units : unit_; m_zeros : zkind; m_notation : notn; m_format : list Z; m_state : pstate; m_down : bool }.
Definition modes_of (st : xst) : modes := mkModes (x_units st) (x_zeros st) (x_notation st) (x_format st) (x_state st) (x_down st).
Definition changed (s : estmt) (m : modes) : modes :=
  mkModes
    (match s with EUnit u _ _ | EMeasure u => u | _ => m_units m end)
    (match s with EUnit _ z _ => z | _ => m_zeros m end)
    (match s with EInc true => Incremental | EInc false | EAbs => Absolute | _ => m_notation m end)
    (match s with EFmat n => [n; 6 - n]%Z | _ => m_format m end)
    (match s with
     | EHeaderBegin => SHeader
     | EHeaderEnd => match m_state m with SHeader => SDrill | o => o end
     | ERewind => match m_state m with SHeader => SDrill | SInit => SHeader | o => o end
     | EDrill => SDrill
     | _ => m_state m
     end)
    (match s with EZRout => true | ERetractC | ERetract | EDrill => false | _ => m_down m end).
(** Everything else *)
Definition all_else (st : xst) : (list tool * list (Z * tloc) * list (Z * tloc) * list (Z * tloc)) * (list hit * option tloc * point * text * option plating) :=
  ((x_store st, x_tools st, x_ctools st, x_ext st), (x_hits st, x_active st, x_pos st, x_prev st, x_plated st)).
(** End coordinates: not negative, with two digits before the point. *)
Definition end_coordinate (d : nat) (o : option Qc) : Prop :=
  match o with Some v => exists k, (0 <= k < 10 ^ Z.of_nat (2 + d))%Z /\ v = grid k d | None => True end.
