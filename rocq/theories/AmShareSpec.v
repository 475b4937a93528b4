(** What the statement of a flashed macro contains.  Histories are lists of events, the last one first. *)
From Verif Require Import PyBase QcLib NumModel GerberText MacroModel GerberEval AmModel.
From Verif Require Export AmShareModel.
Open Scope list_scope.

(** The last macro statement with this name, told apart by how many events were before it, and its
    instructions. *)
Fixpoint macro_named (name : text) (past : list event) : option (nat * list instr) :=
  match past with
  | [] => None
  | EvMacro n i :: r => if teq n name then Some (List.length r, i) else macro_named name r
  | _ :: r => macro_named name r
  end.
(** The macro statement and the primitives of an aperture defined after [past]. *)
Definition made (name : text) (m : list Qc) (past : list event) : option (nat * list amprim) :=
  match macro_named name past with
  | Some (k, i) => match am_build i m with Ok ps => Some (k, ps) | Err _ => None end
  | None => None
  end.
(** The last definition of a D-code; [Some None] when it is not a macro. *)
Fixpoint defined (d : Z) (past : list event) : option (option (nat * list amprim)) :=
  match past with
  | [] => None
  | EvAperture d' n m :: r => if (d' =? d)%Z then Some (made n m r) else defined d r
  | EvStandard d' :: r => if (d' =? d)%Z then Some None else defined d r
  | _ :: r => defined d r
  end.
(** The primitives of the last aperture, of any D-code, made from the macro statement [k]. *)
Fixpoint last_made (k : nat) (past : list event) : list amprim :=
  match past with
  | [] => []
  | EvAperture _ n m :: r =>
      match made n m r with
      | Some (k', ps) => if Nat.eqb k' k then ps else last_made k r
      | None => last_made k r
      end
  | _ :: r => last_made k r
  end.
Fixpoint selected (past : list event) : Z :=
  match past with [] => 0%Z | EvSelect d :: _ => d | _ :: r => selected r end.
(** The flashes of the rest of a file, given what was before: the primitives of the aperture flashed, and those
    of the last aperture made from the same macro statement. *)
Fixpoint flashes_after (past rest : list event) : list (option (list amprim * list amprim)) :=
  match rest with
  | [] => []
  | EvFlash :: r =>
      match defined (selected past) past with
      | Some (Some (k, ps)) => [Some (ps, last_made k past)]
      | Some None => [None]
      | None => []
      end ++ flashes_after (EvFlash :: past) r
  | e :: r => flashes_after (e :: past) r
  end.
(** The macro statements that the aperture definitions use. *)
Fixpoint uses (past : list event) : list nat :=
  match past with
  | [] => []
  | EvAperture _ n m :: r => match macro_named n r with Some (k, _) => k :: uses r | None => uses r end
  | _ :: r => uses r
  end.
