(** Lines of drill files that draw nothing. *)
From Verif Require Import PyBase QcLib NumSpec ExcellonModel ExcellonSpec DrillLinesSpec.
From Verif Require Import GerberText.
Import ListNotations.
Open Scope list_scope.

Definition spaces (s : text) : Prop := Forall (fun c => is_space c = true) s.
Definition begins (w s : text) : Prop := exists b, s = w ++ b.
(** Lines in which nothing is recognised *)
Definition unrecognised (t : text) : Prop :=
  ~ contains (T "INCH") t /\ ~ contains (T "METRIC") t /\
  forall w, In w [T ";"; T "%"; T "F"; T "T"; T "R"; T "X"; T "Y"; T "M00"; T "M15"; T "M16"; T "M17"; T "M30"; T "M48"; T "M71"; T "M72"; T "M95";
                  T "G00"; T "G01"; T "G05"; T "G40"; T "G41"; T "G42"; T "G90"; T "ICI"; T "VER"; T "FMAT"] -> ~ begins w t.
(** [idle t s]: the line [t] draws nothing and sets nothing; it is noted as the statement [s]. *)
Inductive idle : text -> estmt -> Prop :=
| idle_comment c : plain_comment c -> idle (T ";" ++ c) (EComment c)
| idle_feed ds : digit_string ds -> ds <> [] -> idle (T "F" ++ ds) (EFeed (int_of ds))
| idle_version n : n = 1%Z \/ n = 2%Z -> idle (T "VER," ++ show_int n) (EVer n)
| idle_off : idle (T "G40") ECutOff
| idle_left : idle (T "G41") ECutLeft
| idle_right : idle (T "G42") ECutRight
| idle_other t : unrecognised t -> t <> [] -> idle t (EUnknown t).
(** No blank at either end *)
Definition tight (t : text) : Prop := (forall c r, t = c :: r -> is_space c = false) /\ (forall c r, t = r ++ [c] -> is_space c = false).
(** A text whose last line that is not blank says G00 or G01 and nothing else *)
Definition pending (a : text) : Prop :=
  exists p l w r, a = p ++ l ++ w ++ r /\ (p = [] \/ exists p', p = p' ++ [nl]) /\ spaces l /\ ~ In nl l /\ spaces r /\ (w = T "G00" \/ w = T "G01").
(** Two files with the same settings, tools, holes and slots; the second has one more statement. *)
Definition one_more (s : estmt) (f f' : xfile) : Prop :=
  xf_set f' = xf_set f /\ xf_tools f' = xf_tools f /\ xf_store f' = xf_store f /\ xf_hits f' = xf_hits f /\
  exists p q u, xf_stmts f = p ++ q /\ xf_stmts f' = p ++ (s, u) :: q.
