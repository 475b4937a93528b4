(** Model of how macro statements are shared by the apertures made from them (gerber/rs274x.py,
    AMParamStmt.build in gerber/gerber_statements.py:427-456).  The statements of a file are reduced to those
    that define or select apertures and to flashes; coordinates, polarities and units are left out. *)
From Verif Require Import PyBase QcLib NumModel GerberText MacroModel GerberEval AmModel.
Open Scope list_scope.

Inductive event :=
| EvMacro (name : text) (instrs : list instr)        (* %AM...*% *)
| EvAperture (d : Z) (name : text) (mods : list Qc)  (* %AD...*% naming a macro *)
| EvStandard (d : Z)                                 (* %AD...*% of a circle, rectangle, obround or polygon *)
| EvSelect (d : Z)                                   (* D10* and the like *)
| EvFlash.                                           (* D03* *)
(** An AMParamStmt: its instructions and its attribute primitives.  gerber_statements.py:405-423 *)
Record amstmt := mkAmStmt { as_instrs : list instr; as_prims : list amprim }.
(** An aperture: an AMGroup with its statement and the primitives it was made from, or another aperture. *)
Definition aperture := option (nat * list amprim).
(** A flash: the primitives that the group was made from, and those that its statement will write.
    None for a flash of another aperture. *)
Definition flash := option (list amprim * list amprim).
Record shst := mkSh {
  sh_stmts : list amstmt; sh_macros : list (text * nat); sh_aps : list (Z * aperture); sh_sel : Z; sh_flashes : list flash }.
(** rs274x.py:240-259 *)
Definition sh_init : shst := mkSh [] [] [] 0 [].
(** self.primitives = ... on the statement *)
Fixpoint set_prims (l : list amstmt) (k : nat) (ps : list amprim) : list amstmt :=
  match l, k with
  | [], _ => []
  | s :: r, O => mkAmStmt (as_instrs s) ps :: r
  | s :: r, Datatypes.S k' => s :: set_prims r k' ps
  end.
Definition sh_step (s : shst) (e : event) : res shst :=
  match e with
  | EvMacro name i =>                                                        (* rs274x.py:613-614 *)
      Ok (mkSh (sh_stmts s ++ [mkAmStmt i []]) ((name, List.length (sh_stmts s)) :: sh_macros s) (sh_aps s) (sh_sel s) (sh_flashes s))
  | EvAperture d name m =>                                                   (* rs274x.py:584-587, gerber_statements.py:427-456 *)
      match tget name (sh_macros s) with
      | None => Err KeyError
      | Some k =>
          do a <- index (sh_stmts s) k;
          do ps <- am_build (as_instrs a) m;
          Ok (mkSh (set_prims (sh_stmts s) k ps) (sh_macros s) ((d, Some (k, ps)) :: sh_aps s) (sh_sel s) (sh_flashes s))
      end
  | EvStandard d => Ok (mkSh (sh_stmts s) (sh_macros s) ((d, None) :: sh_aps s) (sh_sel s) (sh_flashes s))  (* rs274x.py:512-587 *)
  | EvSelect d => Ok (mkSh (sh_stmts s) (sh_macros s) (sh_aps s) d (sh_flashes s))  (* rs274x.py:783-784 *)
  | EvFlash =>                                                               (* rs274x.py:702-724: deepcopy of the aperture, with its statement *)
      match zget (sh_sel s) (sh_aps s) with
      | None => Err KeyError
      | Some None => Ok (mkSh (sh_stmts s) (sh_macros s) (sh_aps s) (sh_sel s) (sh_flashes s ++ [None]))
      | Some (Some (k, ps)) =>
          do a <- index (sh_stmts s) k;
          Ok (mkSh (sh_stmts s) (sh_macros s) (sh_aps s) (sh_sel s) (sh_flashes s ++ [Some (ps, as_prims a)]))
      end
  end.
Fixpoint sh_run (s : shst) (l : list event) : res shst :=
  match l with
  | [] => Ok s
  | e :: r => do s <- sh_step s e; sh_run s r
  end.
