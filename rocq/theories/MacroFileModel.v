(** Reading a Gerber file with aperture macros and writing it again (GerberFile.write): what the macro statements
    contain after the file has been read. *)
From Verif Require Import PyBase QcLib NumModel MacroModel GerberText GerberEval AmModel.
Open Scope list_scope.

(** rs274x.py:514-583: the names of the standard apertures. *)
Definition standard (name : text) : bool := teq name (T "C") || teq name (T "R") || teq name (T "O") || teq name (T "P").
(** rs274x.py:584-585 and gerber_statements.py:427-454 build: an aperture definition which names a macro replaces the
    primitives of the macro statement; the dictionary macros has the latest statement of that name (rs274x.py:613-614),
    which is searched here in the statements read before, the latest first. *)
Fixpoint rebuild (name : text) (mods : list (list Qc)) (past : list stmt) : res (list stmt) :=
  match past with
  | [] => Err KeyError
  | SAM n body ps :: p =>
      if teq n name then
        do i <- read_macro body; do m <- index mods 0; do q <- am_build i m; Ok (SAM n body (map prim_to_gerber q) :: p)
      else do p' <- rebuild name mods p; Ok (SAM n body ps :: p')
  | s :: p => do p' <- rebuild name mods p; Ok (s :: p')
  end.
(** rs274x.py:267-271: the statements after all of them have been evaluated, of which only the macro statements change here
    (the operations filled in are in GerberEval.v); a macro statement is made without primitives (gerber_statements.py:421-422). *)
Fixpoint built_from (past l : list stmt) : res (list stmt) :=
  match l with
  | [] => Ok (rev past)
  | SAM n body _ :: r => built_from (SAM n body [] :: past) r
  | SAD d name mods :: r =>
      if standard name then built_from (SAD d name mods :: past) r
      else do p <- rebuild name mods past; built_from (SAD d name mods :: p) r
  | s :: r => built_from (s :: past) r
  end.
Definition built (l : list stmt) : res (list stmt) := built_from [] l.
(** rs274x.py:38-70, 267-277 and 150-155: the file is read, then written with its own settings.  Simplification: every
    statement is evaluated as soon as it is read; an error of the evaluation comes here after those of the reading. *)
Definition rewritten (fc : centre_fun) (fs : filesys) (data : text) : res text :=
  do r <- parse_text fs data;
  do e <- evaluate_all fc g_init (fst r);
  do b <- built (snd e);
  write_file (snd r) b.
