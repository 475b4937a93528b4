(** Comparison of the layers of a board (gerber/layers.py:267-295) and looking for a layer in a list of layers
    (python's "in" on lists, e.g. on PCB.layers, gerber/pcb.py:72). *)
From Verif Require Import PyBase.
Import ListNotations.
Open Scope list_scope.

(** A layer object: which object it is, and the attribute order, which only internal layers have (layers.py:265). *)
Record layer := mkLayer { which : nat; order : option Z }.

Inductive cmp := Eq | Ne | Gt | Lt | Ge | Le.
(** layers.py:267-295: InternalLayer's operators *)
Definition internal_cmp (c : cmp) (n : Z) (other : layer) : res bool :=
  match order other with
  | None => Err TypeError                                                      (* not hasattr(other, 'order') *)
  | Some m => Ok (match c with
                  | Eq => n =? m | Ne => negb (n =? m) | Gt => m <? n | Lt => n <? m | Ge => m <=? n | Le => n <=? m
                  end)%Z
  end.
(** a == b (python): InternalLayer is derived from PCBLayer, so that its operator is asked even when the other layer is
    on the left; the other layers have python's own comparison, by identity. *)
Definition layer_eq (a b : layer) : res bool :=
  match order a, order b with
  | Some n, _ => internal_cmp Eq n b
  | None, Some m => internal_cmp Eq m a
  | None, None => Ok (which a =? which b)%nat
  end.
(** x in l (python): the elements are compared from the left, by identity first; which of the two stands on the left of
    == has changed between versions and makes no difference here. *)
Fixpoint layer_in (x : layer) (l : list layer) : res bool :=
  match l with
  | [] => Ok false
  | e :: l' =>
      if (which e =? which x)%nat then Ok true
      else do b <- layer_eq e x; if b then Ok true else layer_in x l'
  end.
