(** Comparing and copying tools, linked tools: gerber/excellon_statements.py. *)
From Verif Require Import PyBase QcLib NumModel FmtModel Regex GerberText ExcellonModel ExcellonFile.
Import ListNotations.
Open Scope list_scope.
Open Scope Qc_scope.

(** excellon_statements.py:200-213: an ExcellonTool, whose settings may be None.  [t_set] of [l_tool] is not used. *)
Record loose := mkLoose { l_tool : tool; l_set : option xset }.
(** A tool of a file (excellon.py:639, 661-662: with settings) *)
Definition of_file (t : tool) : loose := mkLoose t (Some (t_set t)).
(** == of numbers or None, excellon_statements.py:261-266 *)
Definition opt_eq (a b : option Qc) : bool := match a, b with Some x, Some y => qceq x y | None, None => true | _, _ => false end.
(** == of plated, excellon_statements.py:267 *)
Definition plating_eq (a b : option plating) : bool :=
  match a, b with Some PYes, Some PYes | Some PNo, Some PNo | Some POptional, Some POptional | None, None => true | _, _ => false end.
(** excellon_statements.py:253-268 equivalent, for another ExcellonTool: the units are compared last. *)
Definition equivalent (a b : loose) : res bool :=
  let s := l_tool a in let o := l_tool b in
  if opt_eq (t_diam s) (t_diam o) && opt_eq (t_feed s) (t_feed o) && opt_eq (t_retract s) (t_retract o) && opt_eq (t_rpm s) (t_rpm o)
     && opt_eq (t_depth s) (t_depth o) && opt_eq (t_maxhit s) (t_maxhit o) && plating_eq (t_plated s) (t_plated o)
  then match l_set a, l_set b with Some x, Some y => Ok (same_unit (xs_units x) (xs_units y)) | _, _ => Err AttributeError end
  else Ok false.
(** excellon_statements.py:123-136 from_tool: a copy without settings, not used yet *)
Definition from_tool (a : loose) : loose :=
  let t := l_tool a in
  mkLoose (mkTool (t_num t) (t_retract t) (t_feed t) (t_maxhit t) (t_rpm t) (t_diam t) (t_depth t) (t_plated t) 0 (t_set t)) None.
(** excellon_statements.py:215-219 to_excellon: the settings given, otherwise those of the tool *)
Definition write_loose (se : option xset) (a : loose) : res text :=
  match (match se with Some _ => se | None => l_set a end) with Some se => write_tool se (l_tool a) | None => Err AttributeError end.
(** excellon_statements.py:238-248 to_inch, to_metric *)
Definition conv_loose (u : unit_) (a : loose) : res loose :=
  match l_set a with
  | Some se => Ok (mkLoose (conv_tool u (with_settings se (l_tool a))) (Some (with_unit u se)))
  | None => Err AttributeError
  end.

(** ** Linked tools *)
(** '/'.join, excellon_statements.py:763 *)
Fixpoint slashed (l : list text) : text :=
  match l with [] => [] | [t] => t | t :: r => t ++ "/"%char :: slashed r end.
(** excellon_statements.py:753-756 LinkToolStmt.from_excellon *)
Definition read_link (line : text) : res (list Z) := mapM py_int_s (split_on "/"%char line).
(** excellon_statements.py:762-763 LinkToolStmt.to_excellon *)
Definition write_link (l : list Z) : text := slashed (map show_int l).
