(** Specification of moving a macro group. *)
From Verif Require Import PyBase QcLib NumModel GerberText HeapModel HeapSpec.
Open Scope list_scope.
Open Scope Qc_scope.

(** The group [l] stands at [p] (the origin as long as it has not been placed) and consists of the
    objects [ms]: its primitives and their contents, all different, none of them the group. *)
Definition stands_at (o : pobj) (p : Qc * Qc) : Prop :=
  (getattr "_position" (po_attrs o) = Some VNone /\ p = (0, 0)) \/
  exists t, getattr "_position" (po_attrs o) = Some (VSeq t [VNum (fst p); VNum (snd p)]).
Definition is_group (h : heap) (l : loc) (p : Qc * Qc) (ms : list loc) : Prop :=
  exists o, hget h l = Some o /\ stands_at o p /\ members h (contents o) ms /\ NoDup ms /\ ~ In l ms /\
    (exists t ls, getattr "primitives" (po_attrs o) = Some (VSeq t (map VRef ls))) /\
    (forall m om, In m ms -> hget h m = Some om -> movable om).
(** [h'] is [h] with the group at [p] and every object in it translated by [d]; the group keeps its
    other attributes. *)
Definition placed (h : heap) (l : loc) (ms : list loc) (p d : Qc * Qc) (h' : heap) : Prop :=
  (forall m, In m ms -> hget h' m = option_map (moved d) (hget h m)) /\
  (forall m, ~ In m ms -> m <> l -> hget h' m = hget h m) /\
  (forall o, hget h l = Some o -> exists o', hget h' l = Some o' /\ po_units o' = po_units o /\ po_conv o' = po_conv o /\
     map fst (po_attrs o') = map fst (po_attrs o) /\
     (forall a, getattr a (po_attrs o') = if String.eqb a "_position" then Some (vpoint p) else getattr a (po_attrs o))).
