(** Model of the position of a macro group (gerber/primitives.py AMGroup). *)
From Verif Require Import PyBase QcLib NumModel GerberText HeapModel.
Open Scope list_scope.
Open Scope Qc_scope.

(** primitives.py:1321-1340, the position setter.  _position is None or a point; [fuel] bounds the
    depth of the nesting as in [offset_obj]. *)
Definition set_position (fuel : nat) (l : loc) (new : Qc * Qc) (h : heap) : res heap :=
  match hget h l with
  | None => Err AttributeError
  | Some o =>
      do d <- match getattr "_position" (po_attrs o) with
              | Some VNone => Ok new
              | Some (VSeq _ [VNum x; VNum y]) => Ok (fst new - x, snd new - y)
              | Some _ => Err TypeError
              | None => Err AttributeError
              end;
      do ls <- inner_list o;
      do h1 <- offset_all fuel d h ls;
      Ok (hset h1 l (put "_position" (vpoint new)))
  end.
(** Several assignments in turn. *)
Definition set_positions (fuel : nat) (l : loc) (ps : list (Qc * Qc)) (h : heap) : res heap :=
  foldM (fun h p => set_position fuel l p h) h ps.
